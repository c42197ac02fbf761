(** What the figure of a fit with Gaussian processes should be (C95). *)
From Coq Require Import Arith List.
From Verif Require Import Py Figure FigureSpec GpFigure.
Import ListNotations.
Open Scope nat_scope.

(** the panels wanted above the planets *)
Definition wanted_above (separate : bool) (likes : nat) (above : list shown) : Prop :=
  if separate then length above = likes + 1 /\ (forall k, k < likes -> nth_error above k = Some (OneLike k)) /\ nth_error above likes = Some Residuals
  else above = [AllData; Residuals].
(** the panels of the planets, in the order of their numbers *)
Definition wanted_below (nophase : bool) (planets : nat) (below : list shown) : Prop :=
  if nophase then below = [] else length below = planets /\ forall i, i < planets -> nth_error below i = Some (Planet (i + 1)).
(** the figure with its options: panels under letters in order, each in a cell of its own *)
Definition figure_of (likes planets cols : nat) (separate nophase : bool) (ps : list pane) : Prop :=
  (exists above below, map pn_shows ps = above ++ below /\ wanted_above separate likes above /\ wanted_below nophase planets below) /\
  (forall i p, nth_error ps i = Some p -> pn_letter p = 97 + i) /\
  NoDup (map pn_place ps) /\
  (forall p, In p ps -> match pn_shows p with
     | Planet n => exists row col, pn_place p = Cell row col /\ cell_number cols row col (n - 1)
     | OneLike k => pn_place p = Upper k
     | AllData => pn_place p = Upper 0
     | Residuals => pn_place p = Upper (if separate then likes else 1) end).
(** columns and cells enough *)
Definition fits (planets : nat) (ncols nrows : option nat) : Prop :=
  columns ncols <> 0 /\ forall r, nrows = Some r -> enough planets r (columns ncols).
