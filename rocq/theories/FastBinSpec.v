(** What binned data are (C71). *)
From Coq Require Import Reals Arith List.
From Verif Require Import Py PyFloat.
Import ListNotations.
Open Scope R_scope.

(** the interval that is binned: from the smallest to the largest, or one unit around the only value *)
Definition range_of (xs : list R) (lo hi : R) : Prop :=
  (In lo xs /\ In hi xs /\ lo < hi /\ forall x, In x xs -> lo <= x <= hi) \/ (exists a, lo = a - 1 / 2 /\ hi = a + 1 / 2 /\ xs <> [] /\ forall x, In x xs -> x = a).
(** [x] is in interval [i] of [n] equal ones; the last includes its right end *)
Definition in_interval (lo hi : R) (n i : nat) (x : R) : Prop :=
  let w := (hi - lo) / INR n in lo + INR i * w <= x /\ (x < lo + INR (S i) * w \/ (S i = n /\ x = hi)).
Definition centre (lo hi : R) (n i : nat) : R := lo + (INR i + 1 / 2) * ((hi - lo) / INR n).

(** [b] are the members of [l] with the property, in order *)
Inductive picks {A} (P : A -> Prop) : list A -> list A -> Prop :=
| picks_nil : picks P [] []
| picks_yes x l b : P x -> picks P l b -> picks P (x :: l) (x :: b)
| picks_no x l b : ~ P x -> picks P l b -> picks P (x :: l) b.
(** the y of the points in bin [i] *)
Definition binned (pts : list (R * R)) (lo hi : R) (n i : nat) (ys : list R) : Prop :=
  exists b, picks (fun p => in_interval lo hi n i (fst p)) pts b /\ ys = map snd b.

(** [m] is the mean of [ys] and [e] its standard error (with the number of values, not one less) *)
Definition mean_err (ys : list R) (m e : R) : Prop :=
  rsum ys = INR (length ys) * m /\ 0 <= e /\ rsum (map (fun y => (y - m) ^ 2) ys) = INR (length ys) ^ 2 * e ^ 2.

(** strictly increasing *)
Fixpoint increasing (l : list nat) : Prop := match l with a :: ((b :: _) as r) => (a < b)%nat /\ increasing r | _ => True end.

(** [out] has, in order, the bins with three points or more and a positive centre *)
Definition is_binning (pts : list (R * R)) (lo hi : R) (n : nat) (out : list (R * ext * ext)) : Prop :=
  exists idx, increasing idx /\
    (forall i, In i idx <-> (i < n)%nat /\ 0 < centre lo hi n i /\ exists ys, binned pts lo hi n i ys /\ (3 <= length ys)%nat) /\
    Forall2 (fun i o => exists ys m e, binned pts lo hi n i ys /\ mean_err ys m e /\ o = (centre lo hi n i, Fin m, Fin e)) idx out.
