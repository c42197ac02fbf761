(** Proofs of C95. *)
From Coq Require Import Arith Bool Lia FinFun List.
From Verif Require Import Py Figure FigureSpec FigureThms GpFigure GpFigureSpec.
Import ListNotations.
Open Scope nat_scope.

Definition pane_of (cols L a i : nat) : pane := mkPane (Cell (i / cols) (i - i / cols * cols)) (L + (i - a)) (Planet (i + 1)).
Definition like_pane (i : nat) : pane := mkPane (Upper i) (97 + i) (OneLike i).

Lemma phases_ok g r c : gf_cols g <> 0 -> forall n a L, (forall i, a <= i < a + n -> i / gf_cols g < r /\ i - i / gf_cols g * gf_cols g < c) ->
  phases g r c (seq a n) L = Ok (map (pane_of (gf_cols g) L a) (seq a n)).
Proof.
  intro C. induction n as [|n IH]; intros a L H; cbn [seq phases map]; [reflexivity|].
  destruct (Nat.eqb_spec (gf_cols g) 0) as [E|_]; [contradiction|]. destruct (H a ltac:(lia)) as [A B].
  apply Nat.ltb_lt in A. apply Nat.ltb_lt in B. rewrite A, B. cbn [andb negb]. rewrite IH by (intros i Hi; apply H; lia). cbn [bind].
  f_equal. f_equal.
  - unfold pane_of. f_equal. lia.
  - apply map_ext_in. intros i Hi. apply in_seq in Hi. unfold pane_of. f_equal. lia.
Qed.
Lemma likes_are : forall n a, like_panels (seq a n) a (97 + a) = map like_pane (seq a n).
Proof. induction n as [|n IH]; intro a; cbn [seq like_panels map]; [reflexivity|]. f_equal. rewrite <- IH. f_equal; lia. Qed.

Lemma col_small i c : c <> 0 -> i - i / c * c < c.
Proof. intro C. pose proof (Nat.div_mod i c C) as D. pose proof (Nat.mod_upper_bound i c C). rewrite Nat.mul_comm. lia. Qed.
Lemma cell_is i c : c <> 0 -> cell_number c (i / c) (i - i / c * c) i.
Proof. intro C. split; [now apply col_small|]. pose proof (Nat.mul_div_le i c C). rewrite (Nat.mul_comm (i / c) c). lia. Qed.
Lemma row_small i c n r : c <> 0 -> i < n -> n <= r * c -> i / c < r.
Proof. intros C I N. apply Nat.div_lt_upper_bound; [exact C|]. rewrite Nat.mul_comm. lia. Qed.

(** panels of the figure, given what is above *)
Section Made.
  Variables (cols planets likes : nat).
  Hypothesis C : cols <> 0.
  Definition below (L : nat) : list pane := map (pane_of cols L 0) (seq 0 planets).
  Lemma below_places L : NoDup (map pn_place (below L)).
  Proof.
    unfold below. rewrite map_map. apply FinFun.Injective_map_NoDup; [|apply seq_NoDup].
    intros i j E. injection E as E1 E2. destruct (cell_is i cols C) as [_ A], (cell_is j cols C) as [_ B]. rewrite E2, E1 in A. lia.
  Qed.
  Lemma below_cell L p : In p (below L) -> exists row col, pn_place p = Cell row col /\ exists i, i < planets /\ pn_shows p = Planet (i + 1) /\ cell_number cols row col i.
  Proof. intro H. apply in_map_iff in H as (i & <- & I). apply in_seq in I. do 2 eexists. split; [reflexivity|]. exists i. split; [lia|]. split; [reflexivity|]. now apply cell_is. Qed.
  Lemma below_shows L : wanted_below false planets (map pn_shows (below L)).
  Proof.
    split; [unfold below; now rewrite !map_length, seq_length|]. intros i I. unfold below. rewrite map_map.
    erewrite map_nth_error; [|rewrite (nth_error_nth' _ 0) by (rewrite seq_length; exact I); now rewrite seq_nth]. reflexivity.
  Qed.
  Lemma below_letter L i p : nth_error (below L) i = Some p -> pn_letter p = L + i.
  Proof.
    unfold below. intro H. assert (i < planets) as I. { assert (i < length (map (pane_of cols L 0) (seq 0 planets))) as K by (apply nth_error_Some; congruence). now rewrite map_length, seq_length in K. }
    rewrite (map_nth_error _ _ (seq 0 planets) (d := i)) in H; [injection H as <-; cbn; lia|]. rewrite (nth_error_nth' _ 0) by (rewrite seq_length; exact I). now rewrite seq_nth.
  Qed.
  Lemma whole separate nophase up L : length up + 97 = L ->
    wanted_above separate likes (map pn_shows up) -> (forall i p, nth_error up i = Some p -> pn_letter p = 97 + i) ->
    NoDup (map pn_place up) -> (forall p, In p up -> match pn_shows p with Planet _ => False | OneLike k => pn_place p = Upper k | AllData => pn_place p = Upper 0 | Residuals => pn_place p = Upper (if separate then likes else 1) end) ->
    figure_of likes planets cols separate nophase (up ++ (if nophase then [] else below L)).
  Proof.
    intros HL A Le N P. assert (forall p, In p up -> exists k, pn_place p = Upper k) as U. { intros p I. specialize (P p I). destruct (pn_shows p); try contradiction; eauto. }
    split; [|split; [|split]].
    - exists (map pn_shows up), (map pn_shows (if nophase then [] else below L)). split; [apply map_app|]. split; [exact A|]. destruct nophase; [reflexivity|apply below_shows].
    - intros i p H. destruct (Nat.lt_ge_cases i (length up)) as [I|I].
      + rewrite nth_error_app1 in H by exact I. now apply Le.
      + rewrite nth_error_app2 in H by exact I. destruct nophase; [destruct (i - length up); discriminate|]. apply below_letter in H. lia.
    - rewrite map_app. destruct nophase; [now rewrite app_nil_r|].
      generalize (below_places L). intro NB. assert (forall x, In x (map pn_place up) -> ~ In x (map pn_place (below L))) as D.
      { intros x I J. apply in_map_iff in I as (p & <- & I). apply in_map_iff in J as (q & E & J). destruct (U p I) as [k K]. destruct (below_cell L q J) as (r & c & K' & _). congruence. }
      revert D. induction N as [|x l X N IH]; intro D; [exact NB|]. cbn. constructor.
      + rewrite in_app_iff. intros [K|K]; [now apply X|]. apply (D x (or_introl eq_refl) K).
      + apply IH. intros y Y. apply D. now right.
    - intros p I. apply in_app_or in I as [I|I].
      + specialize (P p I). destruct (pn_shows p); try exact P. contradiction.
      + destruct nophase; [destruct I|]. destruct (below_cell L p I) as (r & c & K & i & _ & S & Ce). rewrite S. exists r, c. split; [exact K|]. now rewrite Nat.add_sub.
  Qed.
End Made.

Lemma cols_same ncols : phase_cols ncols = columns ncols.
Proof. now destruct ncols. Qed.
Lemma init_ok likes planets ncols nrows separate : fits planets ncols nrows -> exists rows,
  gp_init likes planets ncols nrows separate = Ok (mkGpFig likes planets (columns ncols) rows separate) /\ planets <= rows * columns ncols.
Proof.
  intros [C F]. unfold gp_init. rewrite cols_same. destruct (phase_rows planets (columns ncols) nrows) as [rows|e] eqn:E.
  - exists rows. split; [reflexivity|]. apply rows_least in E as [E _]. unfold rows_of in E. destruct nrows as [r|]; [subst rows; now apply F|exact (proj1 E)].
  - exfalso. unfold phase_rows in E. destruct nrows; [discriminate|]. destruct (Nat.eqb_spec (columns ncols) 0); [contradiction|discriminate].
Qed.

Lemma separate_made likes planets ncols nrows nophase axs : fits planets ncols nrows -> nophase = true \/ 1 <= planets ->
  exists g ps, gp_init likes planets ncols nrows true = Ok g /\ gp_multipanel g axs nophase = Ok (axs ++ ps, Some (axs ++ ps)) /\ figure_of likes planets (columns ncols) true nophase ps.
Proof.
  intros F N. destruct (init_ok likes planets ncols nrows true F) as (rows & I & R). destruct F as [C _].
  exists (mkGpFig likes planets (columns ncols) rows true).
  set (up := map like_pane (seq 0 likes) ++ [mkPane (Upper likes) (97 + likes) Residuals]).
  exists (up ++ (if nophase then [] else below (columns ncols) planets (97 + likes + 1))). split; [exact I|]. split.
  - unfold gp_multipanel. cbn [gf_separate]. unfold separate_panels. cbn [gf_cols gf_likes gf_rows gf_planets]. destruct (Nat.eqb_spec (columns ncols) 0) as [E|_]; [contradiction|].
    rewrite (likes_are likes 0 : like_panels (seq 0 likes) 0 97 = _). destruct nophase; [now rewrite app_nil_r|]. destruct N as [N|N]; [discriminate|].
    unfold grid_spec. destruct (Nat.eqb_spec rows 0) as [E|_]; [subst rows; cbn in R; lia|]. destruct (Nat.eqb_spec (columns ncols) 0) as [E|_]; [contradiction|]. cbn [orb bind].
    rewrite phases_ok; [reflexivity|exact C|]. cbn [gf_cols]. intros i Hi. split; [eapply row_small; eauto; lia|now apply col_small].
  - apply whole; [exact C|unfold up; rewrite app_length, map_length, seq_length; cbn; lia| | | |].
    + unfold up. rewrite map_app, map_map. cbn [map]. split; [|split].
      * rewrite app_length, map_length, seq_length. reflexivity.
      * intros k K. rewrite nth_error_app1 by (rewrite map_length, seq_length; exact K). erewrite map_nth_error; [|rewrite (nth_error_nth' _ 0) by (rewrite seq_length; exact K); now rewrite seq_nth]. reflexivity.
      * rewrite nth_error_app2; rewrite map_length, seq_length; [now rewrite Nat.sub_diag|lia].
    + unfold up. intros i p H. destruct (Nat.lt_ge_cases i likes) as [K|K].
      * rewrite nth_error_app1 in H by (rewrite map_length, seq_length; exact K). erewrite map_nth_error in H; [|rewrite (nth_error_nth' _ 0) by (rewrite seq_length; exact K); now rewrite seq_nth]. injection H as <-. reflexivity.
      * rewrite nth_error_app2 in H; rewrite map_length, seq_length in *; [|exact K]. destruct (i - likes) as [|x] eqn:E; cbn in H; [|destruct x; discriminate]. injection H as <-. cbn. lia.
    + unfold up. rewrite map_app, map_map. cbn [map pn_place like_pane]. replace (map (fun x => Upper x) (seq 0 likes) ++ [Upper likes]) with (map Upper (seq 0 (likes + 1))) by (rewrite seq_app, map_app; reflexivity).
      apply FinFun.Injective_map_NoDup; [intros a b E; now injection E|apply seq_NoDup].
    + unfold up. intros p H. apply in_app_or in H as [H|[<-|[]]]; [|reflexivity]. apply in_map_iff in H as (i & <- & _). reflexivity.
Qed.

Lemma together_made likes planets ncols nrows nophase axs : fits planets ncols nrows ->
  exists g ps, gp_init likes planets ncols nrows false = Ok g /\ gp_multipanel g axs nophase = Ok (axs ++ ps, None) /\ figure_of likes planets (columns ncols) false false ps.
Proof.
  intros F. destruct (init_ok likes planets ncols nrows false F) as (rows & I & R). destruct F as [C _].
  exists (mkGpFig likes planets (columns ncols) rows false).
  set (up := [mkPane (Upper 0) 97 AllData; mkPane (Upper 1) 98 Residuals]).
  exists (up ++ below (columns ncols) planets 99). split; [exact I|]. split.
  - unfold gp_multipanel. cbn [gf_separate]. unfold base_panels. cbn [gf_cols gf_likes gf_rows gf_planets].
    rewrite phases_ok; [reflexivity|exact C|]. cbn [gf_cols]. intros i Hi. split; [assert (i / columns ncols < rows) by (eapply row_small; eauto; lia); lia|]. pose proof (col_small i (columns ncols) C). lia.
  - apply (whole (columns ncols) planets likes C false false up 99 eq_refl); unfold up.
    + reflexivity.
    + intros i p H. destruct i as [|[|[|i]]]; cbn in H; try discriminate; injection H as <-; reflexivity.
    + cbn. repeat constructor; cbn; intuition discriminate.
    + intros p [<-|[<-|[]]]; reflexivity.
Qed.

Lemma nophase_ignored likes planets ncols nrows : fits planets ncols nrows -> 1 <= planets -> exists g ps,
  gp_init likes planets ncols nrows false = Ok g /\ gp_multipanel g [] true = Ok (ps, None) /\ ~ figure_of likes planets (columns ncols) false true ps.
Proof.
  intros F P. destruct (together_made likes planets ncols nrows true [] F) as (g & ps & I & M & ((ab & be & S & A & B) & _)). exists g, ps. split; [exact I|]. split; [exact M|].
  intros ((ab' & be' & S' & A' & B') & _). cbn in A, A', B'. subst ab ab' be'. rewrite S' in S. apply (f_equal (@length _)) in S. cbn in S. rewrite (proj1 B) in S. lia.
Qed.
Lemma none_refused likes ncols axs : columns ncols <> 0 -> exists g, gp_init likes 0 ncols None true = Ok g /\ gp_multipanel g axs false = Err ValueError.
Proof.
  intro C. unfold gp_init, phase_rows. rewrite cols_same. destruct (Nat.eqb_spec (columns ncols) 0) as [E|_]; [contradiction|]. cbn [bind].
  eexists. split; [reflexivity|]. unfold gp_multipanel. cbn [gf_separate]. unfold separate_panels. cbn [gf_cols gf_likes gf_rows gf_planets]. destruct (Nat.eqb_spec (columns ncols) 0) as [E|_]; [contradiction|].
  rewrite Nat.div_small by lia. reflexivity.
Qed.
Lemma kept_on g nophase ps r : gp_multipanel g [] nophase = Ok (ps, r) -> ps <> [] /\ exists r', gp_multipanel g ps nophase = Ok (ps ++ ps, r') /\ (gf_separate g = true -> r' = Some (ps ++ ps)).
Proof.
  unfold gp_multipanel. destruct (gf_separate g).
  - destruct (separate_panels g nophase) as [l|] eqn:E; [|discriminate]. cbn. intro H. injection H as <- <-. split; [|eauto].
    unfold separate_panels in E. destruct (Nat.eqb (gf_cols g) 0); [discriminate|]. intros ->. destruct nophase.
    + injection E as E. destruct (like_panels (seq 0 (gf_likes g)) 0 97); discriminate.
    + destruct (grid_spec _ _); [cbn in E|discriminate]. destruct (phases _ _ _ _ _); [cbn in E|discriminate]. injection E as E. destruct (like_panels (seq 0 (gf_likes g)) 0 97); discriminate.
  - destruct (base_panels g false) as [l|] eqn:E; [|discriminate]. cbn. intro H. injection H as <- <-. split; [|eexists; split; [reflexivity|discriminate]].
    unfold base_panels in E. destruct (phases _ _ _ _ _); [cbn in E|discriminate]. injection E as <-. discriminate.
Qed.
