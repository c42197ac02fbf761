(** What the theorems on the plots of a sampling run (C79) are stated with. *)
From Coq Require Import Reals String Arith Bool List.
From Verif Require Import Py PyFloat Params Mcmc PanelSpec ChainPlot.
Import ListNotations.
Open Scope R_scope.

(** column [j] of the rows returned by mcmc *)
Definition cell (j : nat) (r : list (option R) * option ext) : R := match nth_error (fst r) j with Some (Some x) => x | _ => 0 end.
(** the table has, under [names], the columns of [df]; others may have been added *)
Definition holds (names : list string) (df : list (list (option R) * option ext)) (chains : dict (list R)) : Prop :=
  forall j k, nth_error names j = Some k -> dget chains k = Some (map (cell j) df).
(** every [t]-th step of [c] from step [o] on: parameter [j] of walker [w] *)
Definition path_of (c : list sample) (w j o t : nat) (line : list R) : Prop :=
  forall i, nth_error line i = option_map (fun x => value x w j) (nth_error c (o + i * t)).
(** the parameter [j] of a run with [nw] walkers: one line for each walker of each ensemble, in the
    walker's colour, with every [t]-th step from a step allowed by [from] on *)
Definition page_shows (nw t : nat) (chains : list (list sample)) (j : nat) (from : nat -> Prop) (p : page) : Prop :=
  length (pg_lines p) = (nw * length chains)%nat /\
  exists colours, grid (5 / 100) (95 / 100) nw colours /\
    forall w e c, (w < nw)%nat -> nth_error chains e = Some c ->
      exists line o, option_map (fun x => (x, line)) (nth_error colours w) = nth_error (pg_lines p) (w * length chains + e) /\
        from o /\ path_of c w j o t line.

(** a check after burn-in and what is written down of it: the chains that were tested, their samples per walker, and
    the least, mean and greatest of the autocorrelation times [ts] *)
Definition check_of (acor : list (list sample) -> list ext) (chains : list (list sample)) (ts : list R) (n lo av hi : R) : Prop :=
  acor chains = map Fin ts /\ ts <> [] /\ n = INR (length (concat chains)) /\ least ts lo /\ greatest ts hi /\ av * INR (length ts) = rsum ts.
(** a point lies below the line drawn *)
Definition below (line : list (R * R)) (p : R * R) : Prop := exists y, In (fst p, y) line /\ snd p < y.
(** the table written after a run whose required factor is [A] *)
Definition table_of (m : mstate) (A : R) (t : autos) : Prop :=
  a_n t = map INR (m_autosamples m) /\ m_automin m = map Fin (a_min t) /\ m_automean m = map Fin (a_mean t) /\ m_automax m = map Fin (a_max t) /\
  a_factor t = repeat A (length (m_autosamples m)).
