(** What a covariance matrix must be, written with indices and plain sums. *)
From Coq Require Import Reals String Arith List.
From Verif Require Import Py PyFloat.
Import ListNotations.
Open Scope R_scope.

(** sum over i < n *)
Definition Sum (n : nat) (f : nat -> R) : R := rsum (map f (seq 0 n)).

(** [m] is the n x n matrix of numbers [a] *)
Definition is_matrix (n : nat) (m : list (list ext)) (a : nat -> nat -> R) : Prop :=
  length m = n /\ (forall r, In r m -> length r = n) /\
  forall i j, (i < n)%nat -> (j < n)%nat -> exists r, nth_error m i = Some r /\ nth_error r j = Some (Fin (a i j)).

Definition symmetric (n : nat) (a : nat -> nat -> R) : Prop :=
  forall i j, (i < n)%nat -> (j < n)%nat -> a i j = a j i.
Definition quad (n : nat) (a : nat -> nat -> R) (c : nat -> R) : R := Sum n (fun i => Sum n (fun j => c i * c j * a i j)).
Definition psd (n : nat) (a : nat -> nat -> R) : Prop := forall c, 0 <= quad n a c.
Definition pd (n : nat) (a : nat -> nat -> R) : Prop :=
  forall c, (exists i, (i < n)%nat /\ c i <> 0) -> 0 < quad n a c.

(** entries: diagonal amp^2 + err^2, the rest within [0, amp^2], symmetric *)
Definition cov_entries (n : nat) (amp : R) (es : list R) (a : nat -> nat -> R) : Prop :=
  symmetric n a /\
  (forall i e, (i < n)%nat -> nth_error es i = Some e -> a i i = amp ^ 2 + e ^ 2) /\
  (forall i j, (i < n)%nat -> (j < n)%nat -> i <> j -> 0 <= a i j <= amp ^ 2).

(** [m] is a covariance matrix for times [xs] and errors [es] with kernel amp^2 k *)
Definition cov_spec (xs es : list R) (amp : R) (k : R -> R -> R) (m : list (list ext)) : Prop :=
  exists a, is_matrix (length xs) m a /\
    (forall i j ti tj, nth_error xs i = Some ti -> nth_error xs j = Some tj -> i <> j -> a i j = amp ^ 2 * k ti tj) /\
    cov_entries (length xs) amp es a /\ psd (length xs) a /\
    ((forall e, In e es -> e <> 0) -> pd (length xs) a).

(** the four hyper-parameters of the quasi-periodic kernel *)
Definition quasi_h (h : dict (option R)) (pl amp per el : R) : Prop :=
  dget h "gp_perlength"%string = Some (Some pl) /\ dget h "gp_amp"%string = Some (Some amp) /\
  dget h "gp_per"%string = Some (Some per) /\ dget h "gp_explength"%string = Some (Some el).
