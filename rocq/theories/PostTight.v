(** Further facts about the nested sampling likelihood (C28). *)
From Coq Require Import Reals String List ZArith Lra Bool.
From Verif Require Import Py PyFloat Params Basis RVModel Likelihood Prior Posterior PostProofs.
From Coq Require Import List.
Import ListNotations.
Open Scope R_scope.

Lemma isfinite_fin s : isfinite s = true -> exists x, s = Fin x.
Proof. destruct s; try discriminate. eauto. Qed.

(** whatever the priors do, the value is a number as long as the likelihood's is *)
Lemma ns_never_infinite pb idx (lik : list row -> list row * res ext) ps v v' n :
  (forall l, snd (lik v) = Ok l -> exists x, l = Fin x) -> ns_loglike pb idx lik ps v = (v', Ok n) -> exists x, n = Fin x.
Proof.
  intros HL H. unfold ns_loglike in H. destruct (extra_likelihood pb idx ps v) as [s|]; [|discriminate].
  destruct (isfinite s) eqn:F; [|inversion H; eauto].
  apply isfinite_fin in F. destruct F as [x ->]. destruct (lik v) as [v1 [l|]]; [|discriminate]. cbn in H. inversion H; subst.
  destruct (HL l eq_refl) as [y ->]. cbn. eauto.
Qed.

(** an extra constraint that answers -inf or nan gives -1e100, without the likelihood being asked *)
Lemma ns_outside pb idx (lik : list row -> list row * res ext) ps v xs :
  Forall2 (fun p r => prior_call_finite pb idx v p = Ok r) (filter prior_extra ps) xs ->
  (exists x, In x xs /\ isfinite x = false) -> ns_loglike pb idx lik ps v = (v, Ok (Fin (- 10 ^ 100))).
Proof.
  intros B (x & Hx & NF). unfold ns_loglike, extra_likelihood.
  assert (forall l acc, Forall2 (fun p r => prior_call_finite pb idx v p = Ok r) l xs -> exists s, sum_priors (prior_call_finite pb idx v) l acc = Ok s /\ isfinite s = false) as Q.
  { clear B. induction xs as [|y xs IH]; [destruct Hx|]. intros l acc B. inversion B as [|p r l' r' Hp Hl E1 E2]; subst. unfold sum_priors in *. cbn [for_each]. rewrite Hp. cbn [bind].
    assert (forall l s, Forall2 (fun p r => prior_call_finite pb idx v p = Ok r) l xs -> isfinite s = false ->
              exists s', for_each l (fun acc p => do x <- prior_call_finite pb idx v p; Ok (ext_add acc x)) s = Ok s' /\ isfinite s' = false) as K.
    { clear. induction xs as [|z xs IH]; intros l s B N; inversion B as [|p r l' r' Hp Hl E1 E2]; subst; cbn [for_each]; [eauto|].
      rewrite Hp. cbn [bind]. apply IH; [exact Hl|]. destruct s, z; cbn in *; auto; discriminate. }
    destruct Hx as [->|Hx].
    - apply K; [exact Hl|]. destruct acc, x; cbn in *; auto; discriminate.
    - apply IH; auto. }
  destruct (Q _ (Fin 0) B) as (s & -> & ->). reflexivity.
Qed.
