(** Binning of time series: radvel/utils.py:222-306 (timebin, bintels). *)
From Coq Require Import Reals String Arith Bool List.
From Verif Require Import Py PyFloat.
Import ListNotations.
Open Scope R_scope.

(** One observation.  The three arrays of timebin are always indexed with the same
    indices; they are modelled by one list of triples (equal lengths). *)
Record pt := mkPt { pt_t : R; pt_m : R; pt_e : R }.

(** l[order], numpy indexing by an index array *)
Definition take {A} (l : list A) (order : list nat) : list A :=
  flat_map (fun i => match nth_error l i with Some x => [x] | None => [] end) order.

(** utils.py:248-256: one bin.  Division by a zero uncertainty (inf/nan in numpy) is not
    modelled; the theorems ask for positive uncertainties. *)
Definition wsum (b : list pt) : R := rsum (map (fun p => (1 / pt_e p) ^ 2) b).
Definition bin_of (b : list pt) : pt :=
  let wt := map (fun p => (1 / pt_e p) ^ 2) b in
  let wt := map (fun w => w / rsum wt) wt in
  mkPt (rsum (map (fun wp => fst wp * pt_t (snd wp)) (combine wt b)))
       (rsum (map (fun wp => fst wp * pt_m (snd wp)) (combine wt b)))
       (1 / sqrt (rsum (map (fun p => 1 / pt_e p ^ 2) b))).

(** utils.py:246: np.where followed by indexing with the result, on the whole array *)
Definition window (pts : list pt) (t0 binsize : R) : list pt :=
  filter (fun p => rleb t0 (pt_t p) && rltb (pt_t p) (t0 + binsize)) pts.

(** the while loop, utils.py:244-258; the loop variable is ct.  [fuel] bounds the rounds. *)
Fixpoint bin_loop (fuel : nat) (pts : list pt) (binsize : R) (ct : nat) (out : list pt) : res (list pt) :=
  match fuel with
  | O => Err OutOfFuel
  | S f =>
      match nth_error pts ct with
      | None => Ok out
      | Some p =>
          let b := window pts (pt_t p) binsize in
          bin_loop f pts binsize (ct + length b) (out ++ [bin_of b])
      end
  end.

(** utils.py:222-260.  [argsort] is np.argsort, whose order of equal times is not
    specified.  For empty input the returned variables were never assigned. *)
Definition timebin (argsort : list R -> list nat) (fuel : nat) (pts : list pt) (binsize : R) : res (list pt) :=
  let pts := take pts (argsort (map pt_t pts)) in
  match pts with
  | [] => Err UnboundLocalError
  | _ => bin_loop fuel pts binsize 0 []
  end.

(** ** bintels, utils.py:263-306 *)

(** np.unique on strings: sorted (lexicographic order), without repetitions *)
Fixpoint s_insert (x : string) (l : list string) : list string :=
  match l with
  | [] => [x]
  | y :: r => if String.eqb x y then l else if String.ltb x y then x :: l else y :: s_insert x r
  end.
Definition np_unique (l : list string) : list string := fold_right s_insert [] l.

(** return_index=1: the first position of each unique value *)
Fixpoint first_index (x : string) (l : list string) : nat :=
  match l with [] => 0 | y :: r => if String.eqb x y then 0 else S (first_index x r) end.

(** np.argsort of an array of distinct indices, applied to the unique values
    (utils.py:289-290): insertion by increasing index *)
Fixpoint n_insert (x : nat * string) (l : list (nat * string)) : list (nat * string) :=
  match l with
  | [] => [x]
  | y :: r => if Nat.ltb (fst x) (fst y) then x :: l else y :: n_insert x r
  end.
Definition uniqsort (telvec : list string) : list string :=
  map snd (fold_right n_insert [] (map (fun s => (first_index s telvec, s)) (np_unique telvec))).

(** t[pos], vel[pos], err[pos] with pos = np.where(telvec == tel) *)
Definition select {A} (telvec : list string) (tel : string) (l : list A) : list A :=
  map snd (filter (fun q => String.eqb (fst q) tel) (combine telvec l)).

Fixpoint per_tel (argsort : list R -> list nat) (fuel : nat) (pts : list pt) (telvec : list string) (binsize : R)
    (tels : list string) (out : list pt) (labels : list string) : res (list pt * list string) :=
  match tels with
  | [] => Ok (out, labels)
  | tel :: r =>
      do b <- timebin argsort fuel (select telvec tel pts) binsize;
      per_tel argsort fuel pts telvec binsize r (out ++ b) (labels ++ repeat tel (length b))
  end.

Definition bintels (argsort : list R -> list nat) (fuel : nat) (pts : list pt) (telvec : list string) (binsize : R)
    : res (list pt * list string) :=
  if Nat.eqb (length (np_unique telvec)) 1 then
    do b <- timebin argsort fuel pts binsize;
    Ok (b, firstn (length b) telvec)
  else per_tel argsort fuel pts telvec binsize (uniqsort telvec) [] [].
