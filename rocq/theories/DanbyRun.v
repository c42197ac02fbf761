(** The two searches of DanbyBox.v succeed on all eccentricities up to 0.99. *)
From Coq Require Import Reals List Uint63 Sint63 Lra.
From Verif Require Import Enclose DanbyBox DanbyBoxProofs.
Import ListNotations.
Open Scope R_scope.

Lemma strips0 : strips check0 cuts = true.
Proof. vm_compute. reflexivity. Qed.

Lemma strips1 : strips check1 cuts = true.
Proof. vm_compute. reflexivity. Qed.

Lemma pi_bound : PI <= 315 / 100.
Proof.
  destruct (Rle_dec PI (315 / 100)) as [L|L]; auto. exfalso.
  assert (P : 0 <= sin (315 / 100)) by (apply sin_ge_0; lra).
  destruct (sin_series (315 / 100)) as [_ U]; [lra|]. lra.
Qed.

Lemma cuts_range e : 0 <= e <= 99 / 100 -> v 0 <= e <= v (List.last (tl cuts) 0%sint63).
Proof.
  intro H. change (List.last (tl cuts) 0%sint63) with 16609444%sint63. rewrite v_0.
  unfold v. change (to_Z 16609444) with 16609444%Z. lra.
Qed.

Lemma lands_start e s : 0 <= e <= 99 / 100 -> 0 <= s <= PI ->
  lands e s 6 (e * sin s) /\ lands e s 6 (e * sin s - 85 / 100 * e).
Proof.
  intros E S. pose proof pi_bound. assert (P : 0 <= sin s) by (apply sin_ge_0; lra).
  assert (S' : 0 <= s <= 315 / 100) by lra.
  pose proof (cuts_range e E) as C. split.
  - exact (strips_sound (fun e s => lands e s 6 (e * sin s)) check0 check0_sound (tl cuts) 0%sint63 e s
             strips0 C S' P (fun X => match (eq_ind (tl cuts) (fun l => match l with [] => False | _ => True end) I [] X) with end)).
  - exact (strips_sound (fun e s => lands e s 6 (e * sin s - 85 / 100 * e)) check1 check1_sound (tl cuts) 0%sint63 e s
             strips1 C S' P (fun X => match (eq_ind (tl cuts) (fun l => match l with [] => False | _ => True end) I [] X) with end)).
Qed.
