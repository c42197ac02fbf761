(** What GPLikelihood.logprob depends on. *)
From Coq Require Import Reals String Arith Bool Lra Lia Classical_Prop List.
From Verif Require Import Py PyFloat PyFacts Params Likelihood BasisProofs Gp.
Import ListNotations.
Open Scope R_scope.

(** ** Histories *)

(** calls that can happen before: logprob() or predict() with any vector *)
Inductive gcall := CallLogprob (v : list row) | CallPredict (v : list row) (xpred : list R).

(** state after the calls, provided every predict returned *)
Fixpoint after_calls (fwd : forward) (la : linalg) (g : gplike) (calls : list gcall) (k : kstate) : option kstate :=
  match calls with
  | [] => Some k
  | CallLogprob v :: r => after_calls fwd la g r (fst (gp_logprob fwd la g v k))
  | CallPredict v xp :: r => match gp_predict fwd la g v k xp with
                             | (k', Ok _) => after_calls fwd la g r k'
                             | (_, Err _) => None
                             end
  end.

(** every hyper-parameter of the kernel is among the named parameters of the vector *)
Definition covers (g : gplike) : Prop :=
  forall s, In s (needed (g_kind g)) -> exists name, In name (dkeys (l_indices (g_like g))) /\ In name (g_hnames g) /\ hkey name = Ok s.

(** the hyper-parameters held by the vector are numbers other than zero *)
Definition nonzero_hyper (g : gplike) (v : list row) : Prop :=
  forall name i r, In name (g_hnames g) -> dget (l_indices (g_like g)) name = Some i -> nth_error v i = Some r ->
    exists x, r_val r = Some x /\ x <> 0.

(** the object has its own time stamps' distances, as left by __init__ *)
Definition own_dist (g : gplike) (k : kstate) : Prop := k_dist k = cdist (l_x (g_like g)) (l_x (g_like g)).

(** ** update_kernel_params *)

Definition same_keys (h h' : dict (option R)) : Prop := forall s, dmem h s = dmem h' s.

Definition res_rel {A B} (P : A -> B -> Prop) (a : res A) (b : res B) : Prop :=
  match a, b with Ok x, Ok y => P x y | Err e, Err e' => e = e' | _, _ => False end.

Section Upd.
Variables (hn : list string) (idx : dict nat) (v : list row).

Lemma step_rel (P : string -> Prop) h h' name : same_keys h h' -> (forall s, P s -> dget h s = dget h' s) ->
  res_rel (fun a b => same_keys a b /\ same_keys a h /\
                      forall s, P s \/ (In name hn /\ hkey name = Ok s) -> dget a s = dget b s)
    (update_step hn idx v h name) (update_step hn idx v h' name).
Proof.
  intros K E. unfold update_step. destruct (existsb (String.eqb name) hn) eqn:X.
  - destruct (hkey name) as [hk|e]; cbn; [|reflexivity].
    pose proof (K hk) as Khk. unfold dmem in Khk.
    destruct (dget h hk) eqn:Dh, (dget h' hk) eqn:Dh'; try discriminate; [|reflexivity].
    destruct (dget_res idx name) as [i|e]; cbn; [|reflexivity].
    destruct (nth_error v i) as [r|]; cbn; [|reflexivity].
    split; [intro s; now rewrite !dmem_dset, K|]. split.
    + intro s. rewrite dmem_dset. destruct (String.eqb_spec s hk) as [->|]; auto. unfold dmem. now rewrite Dh.
    + intros s Hs. destruct (String.eqb_spec s hk) as [->|N]; [now rewrite !dget_dset_same|].
      rewrite !dget_dset_other by auto. destruct Hs as [Hs|[_ Hs]]; [auto|congruence].
  - cbn. split; auto. split; [intro; reflexivity|]. intros s [Hs|[Hs _]]; auto. exfalso.
    assert (existsb (String.eqb name) hn = true); [|congruence]. apply existsb_exists. exists name. split; auto. apply String.eqb_refl.
Qed.

Lemma steps_rel names : forall (P : string -> Prop) h h', same_keys h h' -> (forall s, P s -> dget h s = dget h' s) ->
  res_rel (fun a b => same_keys a b /\ same_keys a h /\
                      forall s, P s \/ (exists name, In name names /\ In name hn /\ hkey name = Ok s) -> dget a s = dget b s)
    (for_each names (update_step hn idx v) h) (for_each names (update_step hn idx v) h').
Proof.
  induction names as [|n names IH]; intros P h h' K E; cbn.
  - split; auto. split; [intro; reflexivity|]. intros s [Hs|[name [[] _]]]. auto.
  - pose proof (step_rel P h h' n K E) as S.
    destruct (update_step hn idx v h n) as [a|e], (update_step hn idx v h' n) as [b|e']; cbn in S |- *; try contradiction; auto.
    destruct S as [S1 [S2 S3]].
    specialize (IH (fun s => P s \/ (In n hn /\ hkey n = Ok s)) a b S1 S3).
    destruct (for_each names _ a) as [a2|], (for_each names _ b) as [b2|]; cbn in IH |- *; try contradiction; auto.
    destruct IH as [I1 [I2 I3]]. split; auto. split; [intro s; now rewrite I2|].
    intros s [Hs|[name [[->|Hn] Hs]]]; apply I3; [left; left; exact Hs|left; right; exact Hs|right; exists name; split; [exact Hn|exact Hs]].
Qed.
End Upd.

(** two kernel states with the same keys agree on the needed ones after an update *)
Lemma update_rel g v k k' : covers g -> same_keys (k_h k) (k_h k') ->
  res_rel (fun a b => same_keys (k_h a) (k_h k) /\ same_keys (k_h b) (k_h k) /\ k_cov a = k_cov k /\ k_dist a = k_dist k /\ k_dist b = k_dist k' /\
                      forall s, In s (needed (g_kind g)) -> dget (k_h a) s = dget (k_h b) s)
    (update_kernel_params g v k) (update_kernel_params g v k').
Proof.
  intros C K. unfold update_kernel_params.
  pose proof (steps_rel (g_hnames g) (l_indices (g_like g)) v (dkeys (l_indices (g_like g))) (fun _ => False) (k_h k) (k_h k') K (fun _ F => match F with end)) as S.
  destruct (for_each _ _ (k_h k)) as [a|], (for_each _ _ (k_h k')) as [b|]; cbn in S |- *; try contradiction; auto.
  destruct S as [S1 [S2 S3]]. split; auto. split; [intro s; rewrite <- S1; apply S2|]. (split; [|split; [|split]]); auto.
Qed.

Lemma update_keys g v k k1 : update_kernel_params g v k = Ok k1 ->
  same_keys (k_h k1) (k_h k) /\ k_cov k1 = k_cov k /\ k_dist k1 = k_dist k.
Proof.
  unfold update_kernel_params. intro H.
  pose proof (steps_rel (g_hnames g) (l_indices (g_like g)) v (dkeys (l_indices (g_like g))) (fun _ => False) (k_h k) (k_h k)
                (fun _ => eq_refl) (fun _ F => match F with end)) as S.
  destruct (for_each _ _ (k_h k)) as [a|]; cbn in *; [|discriminate]. injection H as <-. cbn. split; [apply S|auto].
Qed.

(** values after an update come from the vector *)
Lemma step_src hn idx v h name a : update_step hn idx v h name = Ok a ->
  forall s, dget a s <> dget h s \/ (In name hn /\ hkey name = Ok s) ->
  In name hn /\ hkey name = Ok s /\ exists i r, dget idx name = Some i /\ nth_error v i = Some r /\ dget a s = Some (r_val r).
Proof.
  unfold update_step. intros H s Hs. destruct (existsb (String.eqb name) hn) eqn:X.
  - assert (In name hn) as Hin.
    { apply existsb_exists in X as [y [Hy E]]. apply String.eqb_eq in E as ->. exact Hy. }
    destruct (hkey name) as [hk|]; cbn in H; [|discriminate].
    destruct (dget h hk); [|discriminate]. unfold dget_res in H. destruct (dget idx name) as [i|]; cbn in H; [|discriminate].
    destruct (nth_error v i) as [r|] eqn:Nr; [|discriminate]. injection H as <-.
    assert (s = hk) as ->.
    { destruct Hs as [Hs|[_ Hs]]; [|congruence]. destruct (String.eqb_spec s hk); auto.
      exfalso. apply Hs. now apply dget_dset_other. }
    split; auto. split; auto. exists i, r. rewrite dget_dset_same. auto.
  - exfalso. injection H as <-. destruct Hs as [Hs|[Hs _]]; [easy|].
    assert (existsb (String.eqb name) hn = true); [|congruence]. apply existsb_exists. exists name. split; auto. apply String.eqb_refl.
Qed.
Lemma steps_src hn idx v names : forall h a, for_each names (update_step hn idx v) h = Ok a ->
  forall s, (exists name, In name names /\ In name hn /\ hkey name = Ok s) ->
  exists name i r, In name hn /\ dget idx name = Some i /\ nth_error v i = Some r /\ dget a s = Some (r_val r).
Proof.
  assert (forall names h a, for_each names (update_step hn idx v) h = Ok a ->
    forall s, (exists name i r, In name hn /\ dget idx name = Some i /\ nth_error v i = Some r /\ dget h s = Some (r_val r)) \/
              (exists name, In name names /\ In name hn /\ hkey name = Ok s) ->
    exists name i r, In name hn /\ dget idx name = Some i /\ nth_error v i = Some r /\ dget a s = Some (r_val r)) as G.
  { clear. induction names as [|n names IH]; intros h a H s Hs; cbn in H.
    - injection H as <-. destruct Hs as [Hs|[x [[] _]]]. exact Hs.
    - destruct (update_step hn idx v h n) as [b|] eqn:E; cbn in H; [|discriminate].
      apply (IH b a H s).
      assert ((In n hn /\ hkey n = Ok s) \/ ~ (In n hn /\ hkey n = Ok s)) as [Y|Y].
      { destruct (in_dec string_dec n hn) as [A|A]; [|tauto]. destruct (hkey n) as [x|]; [|right; intros [_ B]; discriminate].
        destruct (string_dec x s) as [->|B]; [tauto|right; intros [_ D]; congruence]. }
      + left. destruct (step_src _ _ _ _ _ _ E s (or_intror Y)) as [_ [_ [i [r [H1 [H2 H3]]]]]]. exists n, i, r. destruct Y. auto.
      + destruct Hs as [[n' [i [r [H1 [H2 [H3 H4]]]]]]|[name [[->|Hn] Hs]]].
        * left. exists n', i, r. split; auto. split; auto. split; auto.
          destruct (classic (dget b s = dget h s)) as [Q|Q]; [congruence|].
          destruct (step_src _ _ _ _ _ _ E s (or_introl Q)) as [A [B _]]. tauto.
        * tauto.
        * right. exists name. auto. }
  intros h a H s Hs. eapply G; eauto.
Qed.

Lemma update_src g v k k1 : covers g -> update_kernel_params g v k = Ok k1 ->
  forall s, In s (needed (g_kind g)) ->
  exists name i r, In name (g_hnames g) /\ dget (l_indices (g_like g)) name = Some i /\ nth_error v i = Some r /\ dget (k_h k1) s = Some (r_val r).
Proof.
  intros C H s Hs. unfold update_kernel_params in H.
  destruct (for_each _ _ (k_h k)) as [a|] eqn:E; cbn in H; [|discriminate]. injection H as <-. cbn.
  eapply steps_src; eauto.
Qed.

(** ** compute_covmatrix *)

Definition agree_needed (g : gplike) (k k' : kstate) : Prop :=
  forall s, In s (needed (g_kind g)) -> dget (k_h k) s = dget (k_h k') s.

Lemma reqb_ne x : x <> 0 -> reqb x 0 = false.
Proof. intro. unfold reqb. now destruct (Req_EM_T x 0). Qed.

Lemma cov_rel kind k k' e : k_dist k = k_dist k' -> (forall s, In s (needed kind) -> dget (k_h k) s = dget (k_h k') s) ->
  (kind = QuasiPer -> forall s, In s (needed kind) -> exists x, dget (k_h k) s = Some (Some x) /\ x <> 0) ->
  snd (compute_covmatrix kind k e) = snd (compute_covmatrix kind k' e) /\
  (forall m, snd (compute_covmatrix kind k e) = Ok m ->
     k_cov (fst (compute_covmatrix kind k e)) = Some m /\ k_cov (fst (compute_covmatrix kind k' e)) = Some m).
Proof.
  intros D E Z. destruct kind; unfold compute_covmatrix, hval, dget_res, with_cov.
  - rewrite (E "gp_length"%string), (E "gp_amp"%string), D by (cbn; tauto).
    destruct (dget (k_h k') "gp_length"), (dget (k_h k') "gp_amp"); cbn; split; auto; try discriminate.
    intros m H. injection H as <-. auto.
  - rewrite (E "gp_length"%string), (E "gp_amp"%string), (E "gp_per"%string), D by (cbn; tauto).
    destruct (dget (k_h k') "gp_length"), (dget (k_h k') "gp_amp"), (dget (k_h k') "gp_per"); cbn; split; auto; try discriminate.
    intros m H. injection H as <-. auto.
  - specialize (Z eq_refl).
    destruct (Z "gp_perlength"%string) as [pl [H1 N1]]; [cbn; tauto|]. destruct (Z "gp_amp"%string) as [am [H2 N2]]; [cbn; tauto|].
    destruct (Z "gp_per"%string) as [pe [H3 N3]]; [cbn; tauto|]. destruct (Z "gp_explength"%string) as [el [H4 N4]]; [cbn; tauto|].
    pose proof (E "gp_perlength"%string ltac:(cbn; tauto)) as E1. pose proof (E "gp_amp"%string ltac:(cbn; tauto)) as E2.
    pose proof (E "gp_per"%string ltac:(cbn; tauto)) as E3. pose proof (E "gp_explength"%string ltac:(cbn; tauto)) as E4.
    rewrite H1 in *. rewrite H2 in *. rewrite H3 in *. rewrite H4 in *. rewrite <- E1, <- E2, <- E3, <- E4, <- D.
    cbn [bad_hyper]. destruct (rltb am 0 || rltb pe 0 || rltb el 0 || rltb pl 0); cbn; [split; [auto|discriminate]|].
    rewrite !reqb_ne by auto. cbn. split; auto. intros m H. injection H as <-. auto.
Qed.

Lemma cov_frame kind k e : k_h (fst (compute_covmatrix kind k e)) = k_h k /\ k_dist (fst (compute_covmatrix kind k e)) = k_dist k.
Proof.
  destruct kind; unfold compute_covmatrix, with_cov; repeat (match goal with |- context [match hval ?a ?b with _ => _ end] => destruct (hval a b) end; cbn; auto).
  match goal with |- context [if ?b then _ else _] => destruct b end; cbn; auto.
  repeat match goal with |- context [match ?o with Some _ => _ | None => _ end] => is_var o; destruct o; cbn; auto end.
  match goal with |- context [if ?b then _ else _] => destruct b end; cbn; auto.
  destruct e; cbn; auto. match goal with |- context [if ?b then _ else _] => destruct b end; cbn; auto.
Qed.

(** ** logprob *)

Lemma logprob_rel fwd la g v k k' : covers g -> same_keys (k_h k) (k_h k') -> k_dist k = k_dist k' ->
  (g_kind g = QuasiPer -> nonzero_hyper g v) ->
  snd (gp_logprob fwd la g v k) = snd (gp_logprob fwd la g v k').
Proof.
  intros C K D Z. unfold gp_logprob. pose proof (update_rel g v k k' C K) as U.
  destruct (update_kernel_params g v k) as [a|e] eqn:Ua, (update_kernel_params g v k') as [b|e'] eqn:Ub; cbn in U; try contradiction; [|cbn; now subst].
  destruct U as [_ [_ [_ [U1 [U2 U3]]]]].
  destruct (gp_resids fwd (g_like g) v) as [r|]; [|reflexivity].
  destruct (rv_errorbars (g_like g) v) as [eb|]; [|reflexivity].
  destruct (cov_rel (g_kind g) a b (inr eb)) as [A B]; [congruence|exact U3| |].
  { intros Q s Hs. destruct (update_src g v k a C Ua s Hs) as [n [i [r' [H1 [H2 [H3 H4]]]]]].
    destruct (Z Q n i r' H1 H2 H3) as [x [Hx Nx]]. exists x. split; [congruence|auto]. }
  destruct (compute_covmatrix (g_kind g) a (inr eb)) as [ka ma], (compute_covmatrix (g_kind g) b (inr eb)) as [kb mb]; cbn in A, B |- *.
  subst mb. destruct ma as [m|]; [|reflexivity]. destruct (B m eq_refl) as [Q1 Q2]. cbn. now rewrite Q1, Q2.
Qed.

Lemma logprob_frame fwd la g v k :
  same_keys (k_h (fst (gp_logprob fwd la g v k))) (k_h k) /\ k_dist (fst (gp_logprob fwd la g v k)) = k_dist k.
Proof.
  unfold gp_logprob. destruct (update_kernel_params g v k) as [k1|] eqn:U; [|now split].
  apply update_keys in U as [U1 [_ U2]].
  destruct (gp_resids fwd (g_like g) v); [|cbn; now split]. destruct (rv_errorbars (g_like g) v) as [eb|]; [|cbn; now split].
  destruct (cov_frame (g_kind g) k1 (inr eb)) as [F1 F2].
  destruct (compute_covmatrix (g_kind g) k1 (inr eb)) as [k2 [m|]]; cbn in *; (split; [rewrite F1; exact U1|congruence]).
Qed.

Lemma predict_frame fwd la g v k xp k' o : gp_predict fwd la g v k xp = (k', Ok o) ->
  same_keys (k_h k') (k_h k) /\ own_dist g k'.
Proof.
  unfold gp_predict. destruct (update_kernel_params g v k) as [k1|] eqn:U; [|easy].
  apply update_keys in U as [U1 _].
  destruct (gp_resids fwd (g_like g) v); [|easy]. destruct (rv_errorbars (g_like g) v) as [eb|]; [|easy].
  set (k2 := set_dist k1 _ _). assert (k_h k2 = k_h k1) as H2 by reflexivity. clearbody k2.
  destruct (cov_frame (g_kind g) k2 (inr eb)) as [F _].
  destruct (compute_covmatrix (g_kind g) k2 (inr eb)) as [k3 [K|]]; [|easy]. cbn in F.
  destruct (has_nan_or_inf K); [easy|].
  set (k3' := set_dist k3 _ _). assert (k_h k3' = k_h k3) as H3 by reflexivity. clearbody k3'.
  destruct (cov_frame (g_kind g) k3' (inl 0)) as [F' _].
  destruct (compute_covmatrix (g_kind g) k3' (inl 0)) as [k4 [Ks|]]; [|easy]. cbn in F'.
  destruct (la_chol la K); [|easy]. destruct (n_cols_ok Ks _); [|easy].
  set (k4' := set_dist k4 _ _). assert (k_h k4' = k_h k4) as H4 by reflexivity. clearbody k4'.
  destruct (cov_frame (g_kind g) k4' (inl 0)) as [F'' _].
  destruct (compute_covmatrix (g_kind g) k4' (inl 0)) as [k5 [Kss|]]; [|easy]. cbn in F''.
  intro H. injection H as <- _. split; [|reflexivity]. cbn. intro s. rewrite <- U1. congruence.
Qed.

Lemma calls_frame fwd la g calls : forall k k', own_dist g k -> after_calls fwd la g calls k = Some k' ->
  same_keys (k_h k') (k_h k) /\ own_dist g k'.
Proof.
  induction calls as [|[v|v xp] calls IH]; intros k k' D H; cbn in H.
  - injection H as <-. split; [intro; reflexivity|auto].
  - destruct (logprob_frame fwd la g v k) as [F1 F2].
    apply IH in H as [I1 I2]; [|unfold own_dist in *; congruence]. split; auto. intro s. now rewrite I1.
  - destruct (gp_predict fwd la g v k xp) as [k1 [o|]] eqn:P; [|easy]. apply predict_frame in P as [P1 P2].
    apply IH in H as [I1 I2]; auto. split; auto. intro s. now rewrite I1.
Qed.

(** logprob() does not depend on the calls made before *)
Lemma gp_history fwd la g calls v k k' : covers g -> own_dist g k ->
  (g_kind g = QuasiPer -> nonzero_hyper g v) ->
  after_calls fwd la g calls k = Some k' ->
  snd (gp_logprob fwd la g v k') = snd (gp_logprob fwd la g v k).
Proof.
  intros C D Z H. destruct (calls_frame fwd la g calls k k' D H) as [K D'].
  apply logprob_rel; auto. unfold own_dist in *. congruence.
Qed.
