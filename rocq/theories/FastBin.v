(** Model of fastbin, radvel/utils.py:309-342.

    np.histogram with a number of bins: equal bins from the smallest to the largest x (half a unit to both sides if
    these are equal), closed on the left, the last one also on the right.  Arithmetic is exact.  Warnings are not modelled. *)
From Coq Require Import Reals Arith Bool List.
From Verif Require Import Py PyFloat Stats.
Import ListNotations.
Open Scope R_scope.

Definition fb_edge (r : R * R) (n i : nat) : R := fst r + INR i * ((snd r - fst r) / INR n).
Definition fb_in (r : R * R) (n i : nat) (x : R) : bool :=
  rleb (fb_edge r n i) x && (if Nat.eqb (S i) n then rleb x (fb_edge r n n) else rltb x (fb_edge r n (S i))).
(** number of points, centre, mean and uncertainty of bin [i], utils.py:323-330 *)
Definition fb_row (r : R * R) (n : nat) (pts : list (R * R)) (i : nat) : nat * R * ext * ext :=
  let ys := map snd (filter (fun p => fb_in r n i (fst p)) pts) in
  let cnt := Fin (INR (length ys)) in
  let dat := ext_div (Fin (rsum ys)) cnt in
  let err := ext_div (ext_sqrt (ext_sub (ext_div (Fin (rsum (map (fun y => y * y) ys))) cnt) (ext_mul dat dat))) (ext_sqrt cnt) in
  (length ys, (fb_edge r n (S i) + fb_edge r n i) / 2, dat, err).
(** bins=0 and weights of another length raise ValueError *)
Definition fastbin (x y : list R) (n : nat) : res (list (R * ext * ext)) :=
  if Nat.eqb n 0 then Err ValueError
  else if negb (Nat.eqb (length x) (length y)) then Err ValueError
  else
    let rows := map (fb_row (hist_range x) n (combine x y)) (seq 0 n) in
    let rows := filter (fun w => Nat.leb 3 (fst (fst (fst w)))) rows in
    let rows := filter (fun w => rltb 0 (snd (fst (fst w)))) rows in
    Ok (map (fun w => (snd (fst (fst w)), snd (fst w), snd w)) rows).
