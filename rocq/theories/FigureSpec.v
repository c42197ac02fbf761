(** What the figure of an orbit plot should be (C77). *)
From Coq Require Import Reals String Ascii Arith List.
From Verif Require Import Py PyFloat Params Basis Likelihood LikeBuild TelPlot TelPlotSpec Panels PanelSpec Figure.
Import ListNotations.
Open Scope nat_scope.

Definition ALPHABET : list ascii := list_ascii_of_string "abcdefghijklmnopqrstuvwxyz".
(** [c] is the code of letter [i] (from 0) of the alphabet *)
Definition is_letter (i c : nat) : Prop := exists a, nth_error ALPHABET i = Some a /\ c = nat_of_ascii a.

(** columns asked for, or one *)
Definition columns (ncols : option nat) : nat := match ncols with Some c => c | None => 1 end.
(** [n] planets fit into [rows] by [cols] cells *)
Definition enough (n rows cols : nat) : Prop := (n <= rows * cols)%nat.
(** rows asked for, or as few as hold all planets *)
Definition rows_of (num cols : nat) (nrows : option nat) (rows : nat) : Prop :=
  match nrows with Some r => rows = r | None => enough num rows cols /\ forall r, enough num r cols -> (rows <= r)%nat end.
(** cells are numbered along the rows *)
Definition cell_number (cols row col i : nat) : Prop := (col < cols)%nat /\ i = (row * cols + col)%nat.

(** how a panel draws its instruments *)
Definition looks (c : content) : list (string * dict string) :=
  match c with
  | OfTimes p => map (fun s => (s_tel s, s_kw s)) (g_series p)
  | OfPhase _ p _ => map (fun s => (s_tel s, s_kw s)) (g_series p)
  end.
Definition alike (a b : axes) : Prop :=
  forall t ka kb o, In (t, ka) (looks (a_shows a)) -> In (t, kb) (looks (a_shows b)) -> o <> "label"%string -> dget ka o = dget kb o.
