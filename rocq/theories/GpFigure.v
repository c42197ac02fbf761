(** Model of GPMultipanelPlot.plot_multipanel, radvel/plot/orbit_plots.py:700-823, and of the method it overrides, 432-520:
    which panels are made, in which cells, under which letters, what is kept in ax_list and what is returned.

    What the panels show is in Panels.v and GpPlot.v; here a panel has a name.  Simplified: drawing a panel raises nothing;
    sizes, margins and saving are not modelled; numbers of rows and columns are not negative. *)
From Coq Require Import Arith Bool List.
From Verif Require Import Py Figure.
Import ListNotations.
Open Scope nat_scope.

(** all data with the model, one likelihood (counted from 0), the residuals, a planet folded *)
Inductive shown := AllData | OneLike (k : nat) | Residuals | Planet (pnum : nat).
Record pane := mkPane { pn_place : place; pn_letter : nat; pn_shows : shown }.
(** attributes: the number of likelihoods and planets, phase_ncols, phase_nrows, plot_likelihoods_separately *)
Record gpfig := mkGpFig { gf_likes : nat; gf_planets : nat; gf_cols : nat; gf_rows : nat; gf_separate : bool }.
(** __init__, orbit_plots.py:74-81 *)
Definition gp_init (likes planets : nat) (ncols nrows : option nat) (separate : bool) : res gpfig :=
  do rows <- phase_rows planets (phase_cols ncols) nrows;
  Ok (mkGpFig likes planets (phase_cols ncols) rows separate).

(** the loop over planets, 499-508, 807-816; the grid has [r] rows and [c] columns *)
Fixpoint phases (g : gpfig) (r c : nat) (is : list nat) (letter : nat) : res (list pane) :=
  match is with
  | [] => Ok []
  | i :: rest =>
      if Nat.eqb (gf_cols g) 0 then Err ZeroDivisionError else
      let i_row := Nat.div i (gf_cols g) in
      let i_col := i - i_row * gf_cols g in
      if negb (Nat.ltb i_row r && Nat.ltb i_col c) then Err IndexError else
      do ps <- phases g r c rest (letter + 1);
      Ok (mkPane (Cell i_row i_col) letter (Planet (i + 1)) :: ps)
  end.
(** MultipanelPlot.plot_multipanel, 432-520, with letters *)
Definition base_panels (g : gpfig) (nophase : bool) : res (list pane) :=
  let up := [mkPane (Upper 0) 97 AllData; mkPane (Upper 1) 98 Residuals] in
  if nophase then Ok up
  else do ps <- phases g (Nat.max 1 (gf_rows g)) (Nat.max 1 (gf_cols g)) (seq 0 (gf_planets g)) 99; Ok (up ++ ps).
(** the loop over likelihoods, 741-781 *)
Fixpoint like_panels (ks : list nat) (i letter : nat) : list pane :=
  match ks with [] => [] | k :: r => mkPane (Upper i) letter (OneLike k) :: like_panels r (i + 1) (letter + 1) end.
(** GridSpec(r, c) wants positive numbers *)
Definition grid_spec (r c : nat) : res unit := if Nat.eqb r 0 || Nat.eqb c 0 then Err ValueError else Ok tt.
(** the branch with a panel for each likelihood, 718-823 *)
Definition separate_panels (g : gpfig) (nophase : bool) : res (list pane) :=
  if Nat.eqb (gf_cols g) 0 then Err ZeroDivisionError else
  let n := gf_likes g in
  let likes := like_panels (seq 0 n) 0 97 in
  let up := likes ++ [mkPane (Upper n) (97 + n) Residuals] in
  if nophase then Ok up
  else do _ <- grid_spec (gf_rows g) (gf_cols g);
       do ps <- phases g (gf_rows g) (gf_cols g) (seq 0 (gf_planets g)) (97 + n + 1); Ok (up ++ ps).
(** plot_multipanel: ax_list afterwards and the list of axes that is returned, None if nothing is.  Line 716 calls the
    overridden method without arguments and returns nothing *)
Definition gp_multipanel (g : gpfig) (ax_list : list pane) (nophase : bool) : res (list pane * option (list pane)) :=
  if gf_separate g
  then do ps <- separate_panels g nophase; Ok (ax_list ++ ps, Some (ax_list ++ ps))
  else do ps <- base_panels g false; Ok (ax_list ++ ps, None).
