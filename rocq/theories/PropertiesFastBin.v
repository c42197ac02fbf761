(** Property theorems C71: binning of the points of a phase plot. *)
From Coq Require Import Reals Arith Bool Lia Lra Permutation List.
From Verif Require Import Py PyFloat Stats FastBin FastBinSpec FastBinProofs.
Import ListNotations.
Open Scope R_scope.

(** * C71 *)
(** The result has, in ascending order, one entry for every bin with three points or more and a positive centre: the centre, the
    mean of the y of exactly the points in the bin, and its standard error. *)
Theorem C71_bins : forall x y n, (0 < n)%nat -> length x = length y -> x <> [] -> exists lo hi out, fastbin x y n = Ok out /\ range_of x lo hi /\ is_binning (combine x y) lo hi n out.
Proof. exact fastbin_spec. Qed.
Print Assumptions C71_bins.

(** three points in the first of two bins, two in the second *)
Example C71_bins_ex : exists lo hi out, fastbin [0; 1; 1; 3; 4] [1; 2; 6; 7; 8] 2 = Ok out /\ range_of [0; 1; 1; 3; 4] lo hi /\ is_binning [(0, 1); (1, 2); (1, 6); (3, 7); (4, 8)] lo hi 2 out.
Proof. apply (C71_bins [0; 1; 1; 3; 4] [1; 2; 6; 7; 8] 2); [lia|reflexivity|discriminate]. Qed.

(** Every point is in exactly one bin. *)
Theorem C71_one_bin : forall xs lo hi n x, (0 < n)%nat -> range_of xs lo hi -> In x xs -> exists i, (i < n)%nat /\ in_interval lo hi n i x /\ forall j, (j < n)%nat -> in_interval lo hi n j x -> j = i.
Proof. exact one_bin. Qed.
Print Assumptions C71_one_bin.

Example C71_one_bin_ex : range_of [0; 1; 4] 0 4 /\ in_interval 0 4 2 1 4 /\ in_interval 0 4 2 1 2 /\ ~ in_interval 0 4 2 0 2.
Proof.
  split; [left; repeat split; cbn; try tauto; try lra; cbn in *; intuition lra|]. unfold in_interval. cbn [INR]. split; [split; [lra|right; split; [reflexivity|lra]]|]. split; [split; [lra|left; lra]|]. intros [_ [?|[? _]]]; [lra|lia].
Qed.

(** The mean lies among the values of the bin, and the error is at most their range. *)
Theorem C71_mean_between : forall ys m e a b, (0 < length ys)%nat -> mean_err ys m e -> (forall y, In y ys -> a <= y <= b) -> a <= m <= b /\ e <= b - a.
Proof. exact mean_between. Qed.
Print Assumptions C71_mean_between.

Example C71_mean_between_ex : mean_err [1; 5; 1; 5] 3 1 /\ forall y, In y [1; 5; 1; 5] -> 1 <= y <= 5.
Proof. split; [split; [cbn; lra|split; [lra|cbn; lra]]|cbn; intuition lra]. Qed.

(** The order of the points does not matter. *)
Theorem C71_order : forall x y x' y' n, length x = length y -> length x' = length y' -> Permutation (combine x y) (combine x' y') -> fastbin x y n = fastbin x' y' n.
Proof. exact fastbin_perm. Qed.
Print Assumptions C71_order.

Example C71_order_ex : fastbin [1; 2; 3] [4; 5; 6] 3 = fastbin [2; 1; 3] [5; 4; 6] 3.
Proof. apply C71_order; try reflexivity. cbn [combine]. apply perm_swap. Qed.

(** In the phase plot, where every point is shown at its phase and one period later, no bin counts a measurement twice and no bin is
    dropped because of its place. *)
Theorem C71_phase_plot : forall phs lo hi, phs <> [] -> (forall p, In p phs -> 0 <= p < 1) -> range_of (phs ++ map (fun p => p + 1) phs) lo hi ->
  (forall i x, in_interval lo hi 25 i x -> ~ in_interval lo hi 25 i (x + 1)) /\ forall i, 0 < centre lo hi 25 i.
Proof. exact phase_bins. Qed.
Print Assumptions C71_phase_plot.

Example C71_phase_plot_ex : range_of ([0; 1 / 2] ++ map (fun p => p + 1) [0; 1 / 2]) 0 (1 / 2 + 1) /\ forall p, In p [0; 1 / 2] -> 0 <= p < 1.
Proof. split; [left; repeat split; cbn; try tauto; try lra; cbn in *; intuition lra|cbn; intuition lra]. Qed.

(** Bins with three points or more can be lost: those with a centre that is not positive. *)
Theorem C71_kept_refuted : exists x y n lo hi i ys, range_of x lo hi /\ (i < n)%nat /\ binned (combine x y) lo hi n i ys /\ (3 <= length ys)%nat /\ fastbin x y n = Ok [].
Proof. exact lost_points. Qed.
Print Assumptions C71_kept_refuted.

(** For positive x that are not all equal none is. *)
Theorem C71_kept_partial : forall xs lo hi n i, (0 < n)%nat -> range_of xs lo hi -> (forall x, In x xs -> 0 < x) -> (exists x y, In x xs /\ In y xs /\ x <> y) -> 0 < centre lo hi n i.
Proof. exact positive_centres. Qed.
Print Assumptions C71_kept_partial.

Example C71_kept_ex : range_of [1; 2] 1 2 /\ (forall x, In x [1; 2] -> 0 < x) /\ exists x y, In x [1; 2] /\ In y [1; 2] /\ x <> y.
Proof. split; [left; repeat split; cbn; try tauto; try lra; cbn in *; intuition lra|]. split; [cbn; intuition lra|]. exists 1, 2. cbn. intuition lra. Qed.
