(** geterr, radvel/utils.py:444-479. *)
From Coq Require Import Reals Arith Bool List.
From Verif Require Import Py PyFloat.
Import ListNotations.
Open Scope R_scope.

(** sorted(vec) *)
Fixpoint insert (x : R) (l : list R) : list R :=
  match l with [] => [x] | y :: r => if rleb x y then x :: l else y :: insert x r end.
Fixpoint sort (l : list R) : list R := match l with [] => [] | x :: r => insert x (sort r) end.

(** np.median *)
Definition median (l : list R) : R :=
  let s := sort l in let n := length l in
  if Nat.even n then (nth (n / 2 - 1) s 0 + nth (n / 2) s 0) / 2 else nth (n / 2) s 0.

(** np.histogram(vec, bins=50): range, edges, counts (the last bin is closed) *)
Definition vmin (l : list R) : R := nth 0 (sort l) 0.
Definition vmax (l : list R) : R := nth (length l - 1) (sort l) 0.
Definition hist_range (l : list R) : R * R :=
  let lo := vmin l in let hi := vmax l in if reqb lo hi then (lo - 1 / 2, hi + 1 / 2) else (lo, hi).
Definition edge (r : R * R) (i : nat) : R := fst r + INR i * ((snd r - fst r) / 50).
Definition in_bin (r : R * R) (i : nat) (x : R) : bool :=
  rleb (edge r i) x && (if Nat.eqb i 49 then rleb x (edge r 50) else rltb x (edge r (S i))).
Definition counts (l : list R) : list nat :=
  map (fun i => length (filter (in_bin (hist_range l) i) l)) (seq 0 50).
(** np.argmax: the first position of the largest entry *)
Fixpoint argmax (l : list nat) : nat :=
  match l with
  | [] => 0%nat
  | x :: r => if forallb (fun y => Nat.leb y x) r then 0%nat else S (argmax r)
  end.
Definition mode_edge (l : list R) : R := edge (hist_range l) (argmax (counts l)).

(** utils.py:465-470; np.radians(90) = pi/2, np.radians(360) = 2 pi *)
Definition wrap (l : list R) : list R :=
  let med := mode_edge l in
  let l := if rltb (PI / 2) med then map (fun x => if rltb x 0 then x + 2 * PI else x) l else l in
  if rleb med (- (PI / 2)) then map (fun x => if rleb 0 x then x - 2 * PI else x) l else l.

(** The result and the caller's array afterwards: the angular branch assigns into the array it
    was given ([vec.values] of a pandas column shares the column's memory).  int(0.159*n) and
    int(0.841*n) are taken in exact arithmetic.  Empty input: sorted([])[0] raises IndexError. *)
Definition geterr (angular : bool) (vec : list R) : res (R * R * R) * list R :=
  let vec := if angular then wrap vec else vec in
  let med := median vec in
  let s := sort vec in
  let n := length s in
  (match nth_error s (159 * n / 1000), nth_error s (841 * n / 1000) with
   | Some lo, Some hi => Ok (med, med - lo, hi - med)
   | _, _ => Err IndexError
   end, vec).
