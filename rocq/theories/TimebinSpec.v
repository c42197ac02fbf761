(** What binning should do, stated without reference to the code. *)
From Coq Require Import Reals String List Permutation Sorted.
From Verif Require Import Py PyFloat Timebin.
Import ListNotations.
Open Scope R_scope.

(** an argsort: a permutation of the positions that sorts the values *)
Definition is_argsort (argsort : list R -> list nat) : Prop :=
  forall l, Permutation (seq 0 (length l)) (argsort l) /\ StronglySorted Rle (take l (argsort l)).

(** o is the inverse-variance weighted mean of the points of b *)
Definition weighted_mean (b : list pt) (o : pt) : Prop :=
  pt_t o * rsum (map (fun p => / pt_e p ^ 2) b) = rsum (map (fun p => pt_t p / pt_e p ^ 2) b) /\
  pt_m o * rsum (map (fun p => / pt_e p ^ 2) b) = rsum (map (fun p => pt_m p / pt_e p ^ 2) b) /\
  0 < pt_e o /\ / pt_e o ^ 2 = rsum (map (fun p => / pt_e p ^ 2) b).

(** the bins partition the points; every bin spans less than [binsize]; every bin starts at
    least [binsize] after the start of the one before *)
Definition is_start (b : list pt) (t0 : R) : Prop :=
  (exists p, In p b /\ pt_t p = t0) /\ forall p, In p b -> t0 <= pt_t p.
Inductive spaced (binsize : R) : list (list pt) -> Prop :=
| sp_nil : spaced binsize []
| sp_one b t0 : is_start b t0 -> spaced binsize [b]
| sp_cons b c r t0 t1 : is_start b t0 -> is_start c t1 -> t0 + binsize <= t1 -> spaced binsize (c :: r) ->
    spaced binsize (b :: c :: r).

(** distinct elements in order of first appearance *)
Inductive firsts : list string -> list string -> Prop :=
| fi_nil : firsts [] []
| fi_cons x l r : firsts (filter (fun y => negb (String.eqb y x)) l) r -> firsts (x :: l) (x :: r).
