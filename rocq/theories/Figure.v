(** Model of the figure that radvel/plot/orbit_plots.py:435-530 (MultipanelPlot.plot_multipanel) makes: which panels, in
    which cells, under which letters.  The sizes of the figure and of its margins are not modelled.

    The user's formats are one object, changed by each panel in turn.  plot_timeseries with show_rms also rewrites the
    rows of marginalised offsets; the later panels read no such row, and the rows of __init__ are used for them.  *)
From Coq Require Import Reals String Arith Bool List.
From Verif Require Import Py PyFloat Params RVModel Likelihood TelPlot Panels.
Import ListNotations.
Open Scope nat_scope.

(** a place: a cell of gs_rv (the two upper panels) or of gs_phase *)
Inductive place := Upper (row : nat) | Cell (row col : nat).
Inductive content := OfTimes (p : panel R) | OfPhase (pnum : nat) (p : panel ext) (bins : list (R * ext * ext)).
(** one Axes object: its cell, the code of its letter (labelfig, plot/__init__.py:166-179), what it shows *)
Record axes := mkAxes { a_place : place; a_letter : option nat; a_shows : content }.

(** phase_nrows, orbit_plots.py:74-81, for [ncols] columns *)
Definition phase_rows (num ncols : nat) (nrows : option nat) : res nat :=
  match nrows with
  | Some r => Ok r
  | None => if Nat.eqb ncols 0 then Err ZeroDivisionError else Ok (Nat.div (num + (ncols - 1)) ncols)
  end.
Definition phase_cols (ncols : option nat) : nat := match ncols with None => 1 | Some c => c end.

Section Figure.
  Variables (use_c : bool) (fuel : nat) (argsort : list ext -> list nat) (q : fitted) (f : plotted).
  Variables (nobin highlight : bool).

  (** the loop over planets, orbit_plots.py:504-512; [letter] is the local pltletter, unbound without letter_labels *)
  Fixpoint phase_axes (ncols nrows : nat) (is : list nat) (fm : dict fmt) (letter : option nat) : res (dict fmt * list axes) :=
    match is with
    | [] => Ok (fm, [])
    | i :: r =>
        if Nat.eqb ncols 0 then Err ZeroDivisionError else
        let i_row := Nat.div i ncols in
        let i_col := i - i_row * ncols in
        if negb (Nat.ltb i_row (Nat.max 1 nrows) && Nat.ltb i_col (Nat.max 1 ncols)) then Err IndexError else
        match letter with
        | None => Err UnboundLocalError
        | Some c =>
            do (fm, p, bins) <- plot_phasefold use_c fuel argsort q f fm nobin highlight (i + 1);
            do (fm, rest) <- phase_axes ncols nrows r fm (Some (c + 1));
            Ok (fm, mkAxes (Cell i_row i_col) (Some c) (OfPhase (i + 1) p bins) :: rest)
        end
    end.

  (** plot_multipanel; [ncols], [nrows] are the arguments of __init__.  ord('a') is 97 *)
  Definition plot_multipanel (fm : dict fmt) (show_rms : bool) (ncols nrows : option nat) (nophase letters : bool) : res (dict fmt * list axes) :=
    let cols := phase_cols ncols in
    let num := ps_num (q_params q) in
    do rows <- phase_rows num cols nrows;
    do (fm, p1) <- plot_timeseries use_c fuel q f fm show_rms highlight;
    let l1 := if letters then Some 97 else None in
    do (fm, p2) <- plot_residuals q f fm highlight;
    let l2 := if letters then Some (97 + 1) else None in
    let l3 := if letters then Some (97 + 1 + 1) else None in
    do (fm, rest) <- (if nophase then Ok (fm, []) else phase_axes cols rows (seq 0 num) fm l3);
    Ok (fm, mkAxes (Upper 0) l1 (OfTimes p1) :: mkAxes (Upper 1) l2 (OfTimes p2) :: rest).
End Figure.
