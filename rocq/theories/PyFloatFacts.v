(** Facts about PyFloat: sums and logarithms of finite values. *)
From Coq Require Import Reals Lra Lia Permutation List.
From Verif Require Import Py PyFloat PyFacts Kepler.
Import ListNotations.
Open Scope R_scope.

Lemma ext_sum_from l : forall a, fold_left ext_add (map Fin l) (Fin a) = Fin (a + rsum l).
Proof.
  induction l as [|x r IH]; intro a; cbn [map fold_left rsum fold_right]; [now rewrite Rplus_0_r|].
  cbn [ext_add]. rewrite IH. f_equal. fold (rsum r). ring.
Qed.

Lemma ext_sum_fin l : ext_sum (map Fin l) = Fin (rsum l).
Proof. unfold ext_sum. rewrite ext_sum_from. now rewrite Rplus_0_l. Qed.

Lemma rsum_cons x l : rsum (x :: l) = x + rsum l.
Proof. reflexivity. Qed.

Lemma rsum_app a b : rsum (a ++ b) = rsum a + rsum b.
Proof. induction a as [|x r IH]; cbn [app]; rewrite ?rsum_cons, ?IH; [cbn; ring|ring]. Qed.

Lemma rsum_perm a b : Permutation a b -> rsum a = rsum b.
Proof. induction 1; rewrite ?rsum_cons in *; try lra. Qed.

Lemma rsum_map_mult {A} (f : A -> R) c l : rsum (map (fun x => c * f x) l) = c * rsum (map f l).
Proof. induction l as [|x r IH]; cbn [map]; rewrite ?rsum_cons, ?IH; [cbn; ring|ring]. Qed.

Lemma rsum_map_plus {A} (f g : A -> R) l : rsum (map (fun x => f x + g x) l) = rsum (map f l) + rsum (map g l).
Proof. induction l as [|x r IH]; cbn [map]; rewrite ?rsum_cons, ?IH; [cbn; ring|ring]. Qed.

Lemma rsum_map_ext {A} (f g : A -> R) l : (forall x, In x l -> f x = g x) -> rsum (map f l) = rsum (map g l).
Proof. intro H. f_equal. now apply map_ext_in. Qed.

Lemma rsum_pos l : l <> [] -> (forall x, In x l -> 0 < x) -> 0 < rsum l.
Proof.
  induction l as [|x r IH]; [congruence|]. intros _ H. rewrite rsum_cons.
  assert (0 < x) by (apply H; now left). destruct r as [|y s]; [cbn; lra|].
  assert (0 < rsum (y :: s)); [|lra]. apply IH; [discriminate|]. intros; apply H; now right.
Qed.

Lemma rsum_nonneg l : (forall x, In x l -> 0 <= x) -> 0 <= rsum l.
Proof.
  induction l as [|x r IH]; cbn; [lra|]. intro H. assert (0 <= x) by auto. assert (0 <= rsum r) by auto. fold (rsum r). lra.
Qed.

Lemma ext_div_fin x y : y <> 0 -> ext_div (Fin x) (Fin y) = Fin (x / y).
Proof. intro H. cbn. unfold reqb. destruct (Req_EM_T y 0); congruence. Qed.

Lemma ext_log_fin x : 0 < x -> ext_log (Fin x) = Fin (ln x).
Proof. intro H. cbn. unfold rltb. destruct (Rlt_dec 0 x); [auto|contradiction]. Qed.

Lemma ext_sqrt_fin x : 0 <= x -> ext_sqrt (Fin x) = Fin (sqrt x).
Proof. intro H. cbn. unfold rltb. destruct (Rlt_dec x 0); [lra|auto]. Qed.

Lemma ln_sqrt x : 0 < x -> ln (sqrt x) = ln x / 2.
Proof.
  intro H. assert (0 < sqrt x) by now apply sqrt_lt_R0.
  rewrite <- (sqrt_sqrt x) at 2 by lra. rewrite ln_mult by auto. field.
Qed.

Lemma map2_map_l {A B C D} (f : B -> C -> D) (g : A -> B) a b : map2 f (map g a) b = map2 (fun x y => f (g x) y) a b.
Proof. revert b. induction a as [|x r IH]; intros [|y s]; cbn; auto. now rewrite IH. Qed.

Lemma map2_map_r {A B C D} (f : A -> C -> D) (g : B -> C) a b : map2 f a (map g b) = map2 (fun x y => f x (g y)) a b.
Proof. revert b. induction a as [|x r IH]; intros [|y s]; cbn; auto. now rewrite IH. Qed.

Lemma map2_diag {A C} (f : A -> A -> C) a : map2 f a a = map (fun x => f x x) a.
Proof. induction a as [|x r IH]; cbn; auto. now rewrite IH. Qed.

Lemma map_map2 {A B C D} (f : C -> D) (g : A -> B -> C) a b : map f (map2 g a b) = map2 (fun x y => f (g x y)) a b.
Proof. revert b. induction a as [|x r IH]; intros [|y s]; cbn; auto. now rewrite IH. Qed.

Lemma map2_combine {A B C} (f : A -> B -> C) a b : map2 f a b = map (fun p => f (fst p) (snd p)) (combine a b).
Proof. revert b. induction a as [|x r IH]; intros [|y s]; cbn; auto. now rewrite IH. Qed.

Lemma map2_ext_in {A B C} (f g : A -> B -> C) a b :
  (forall x y, In x a -> In y b -> f x y = g x y) -> map2 f a b = map2 g a b.
Proof.
  revert b. induction a as [|x r IH]; intros [|y s] H; cbn; auto. rewrite H by (now left). f_equal. apply IH.
  intros; apply H; now right.
Qed.

Lemma map2_app {A B C} (f : A -> B -> C) a a' b b' : length a = length b ->
  map2 f (a ++ a') (b ++ b') = (map2 f a b ++ map2 f a' b')%list.
Proof. revert b. induction a as [|x r IH]; intros [|y s] H; cbn in *; try discriminate; auto. f_equal. apply IH. lia. Qed.
