(** Property C95: the figure of a fit with Gaussian processes and its options. *)
From Coq Require Import Arith Bool Lia List.
From Verif Require Import Py Figure FigureSpec GpFigure GpFigureSpec GpFigureThms.
Import ListNotations.
Open Scope nat_scope.

(** * C95 *)
(** Full claim: the figure has the panels its options ask for.  With a panel for each likelihood it has them, for one
    planet or more, or without the panels of planets: likelihoods in order, the residuals, the planets in order along the
    rows, all under the letters a, b, c, ..., each in a cell of its own; and they are returned. *)
Theorem C95_separate_partial : forall likes planets ncols nrows nophase axs, fits planets ncols nrows -> nophase = true \/ 1 <= planets ->
  exists g ps, gp_init likes planets ncols nrows true = Ok g /\ gp_multipanel g axs nophase = Ok (axs ++ ps, Some (axs ++ ps)) /\
    figure_of likes planets (columns ncols) true nophase ps.
Proof. exact separate_made. Qed.
Print Assumptions C95_separate_partial.

Example C95_separate_partial_ex : fits 3 (Some 2) None /\ exists g, gp_init 2 3 (Some 2) None true = Ok g /\
  gp_multipanel g [] false = let ps := [mkPane (Upper 0) 97 (OneLike 0); mkPane (Upper 1) 98 (OneLike 1); mkPane (Upper 2) 99 Residuals;
    mkPane (Cell 0 0) 100 (Planet 1); mkPane (Cell 0 1) 101 (Planet 2); mkPane (Cell 1 0) 102 (Planet 3)] in Ok (ps, Some ps).
Proof. split; [split; [discriminate|discriminate]|]. eexists. split; reflexivity. Qed.

(** With all likelihoods in one panel the figure is that with the panels of the planets, whether they are wanted or not,
    and nothing is returned. *)
Theorem C95_together_partial : forall likes planets ncols nrows nophase axs, fits planets ncols nrows ->
  exists g ps, gp_init likes planets ncols nrows false = Ok g /\ gp_multipanel g axs nophase = Ok (axs ++ ps, None) /\
    figure_of likes planets (columns ncols) false false ps.
Proof. exact together_made. Qed.
Print Assumptions C95_together_partial.

Example C95_together_partial_ex : fits 1 None None /\ exists g, gp_init 2 1 None None false = Ok g /\
  gp_multipanel g [] true = Ok ([mkPane (Upper 0) 97 AllData; mkPane (Upper 1) 98 Residuals; mkPane (Cell 0 0) 99 (Planet 1)], None).
Proof. split; [split; [discriminate|discriminate]|]. eexists. split; reflexivity. Qed.

(** So nophase is not honoured there: the figure is never the one asked for. *)
Theorem C95_nophase_refuted : forall likes planets ncols nrows, fits planets ncols nrows -> 1 <= planets -> exists g ps,
  gp_init likes planets ncols nrows false = Ok g /\ gp_multipanel g [] true = Ok (ps, None) /\ ~ figure_of likes planets (columns ncols) false true ps.
Proof. exact nophase_ignored. Qed.
Print Assumptions C95_nophase_refuted.

Example C95_nophase_refuted_ex : fits 2 (Some 1) (Some 2) /\ 1 <= 2.
Proof. split; [split; [discriminate|intros r E; injection E as <-; unfold enough; cbn; lia]|lia]. Qed.

(** Without planets a figure with a panel for each likelihood cannot be made unless nophase is given: the grid has no rows. *)
Theorem C95_no_planets_refuted : forall likes ncols axs, columns ncols <> 0 ->
  exists g, gp_init likes 0 ncols None true = Ok g /\ gp_multipanel g axs false = Err ValueError.
Proof. exact none_refused. Qed.
Print Assumptions C95_no_planets_refuted.

Example C95_no_planets_refuted_ex : fits 0 None None /\ columns None <> 0.
Proof. split; [split; discriminate|discriminate]. Qed.

(** Full claim: the axes returned are those of the figure.  False of a second figure: the list has those of the first too. *)
Theorem C95_again_refuted : forall g nophase ps r, gp_multipanel g [] nophase = Ok (ps, r) ->
  ps <> [] /\ exists r', gp_multipanel g ps nophase = Ok (ps ++ ps, r') /\ (gf_separate g = true -> r' = Some (ps ++ ps)).
Proof. exact kept_on. Qed.
Print Assumptions C95_again_refuted.

Example C95_again_refuted_ex : exists ps, gp_multipanel (mkGpFig 1 1 1 1 true) [] false = Ok (ps, Some ps) /\ length ps = 3.
Proof. eexists. split; reflexivity. Qed.
