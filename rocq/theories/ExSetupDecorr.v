(** Setup files with decorrelation variables, for the examples of PropertiesSetup.v. *)
From Coq Require Import Reals String Arith Bool Lia Lra Permutation List.
From Verif Require Import Py PyFloat PyFacts Params ParamsProofs ParamsSpec VectorProofs Basis BasisExtra RVModel Likelihood LikeBuild BasisModel BasisThms ExLike Gp Setup SetupSpec SetupProofs SetupThms SetupMain ExSetup SetupGpSpec SetupDecorr.
Import ListNotations.
Open Scope string_scope.

Definition exd_obs (x : nat -> R) (t : string) (i : nat) : obs := mkObs (x i) (x (i + 1)%nat) (x (i + 2)%nat) t [("bis", x (i + 30)%nat); ("fwhm", x (i + 40)%nat)].
Definition exd_P (x : nat -> R) (ps : params) : setup :=
  mkSetup ps "per tp e w k" (Some ["bis"; "fwhm"]) 2 ["a"; "b"] [exd_obs x "a" 20; exd_obs x "b" 23; exd_obs x "a" 29] None None.
Lemma exd_columns x ps nm : has_columns (exd_P x ps) ["bis"; "fwhm"] nm.
Proof. intros o v Ho _ Hv. cbn in Ho. destruct Ho as [<-|[<-|[<-|[]]]]; exact Hv. Qed.
Lemma exd_rows x ps nm : In nm ["a"; "b"] -> has_rows (exd_P x ps) nm.
Proof. intros [<-|[<-|[]]]; [exists (exd_obs x "a" 20)|exists (exd_obs x "b" 23)]; cbn; auto. Qed.
Lemma exd_none s : ~ In ("c1_" ++ s) (dkeys (ps_items exl_ps)).
Proof. intro H. cbn in H. decompose [or] H; try contradiction; discriminate. Qed.
Lemma exd_complete x : exists r, initialize_posterior exs_sort (exd_P x exl_ps) true (exl_h x) = Ok r.
Proof.
  apply (complete_decorr exs_sort (exd_P x exl_ps) (exl_h x) ["bis"; "fwhm"]); try reflexivity.
  - apply exs_params.
  - exact exs_nolog.
  - apply exs_stor.
  - discriminate.
  - exact exd_none.
  - intros nm Hn. split; [now apply exd_rows|]. split; [apply exd_columns|]. cbn in Hn. destruct Hn as [<-|[<-|[]]]; (split; [cbn; tauto|]); do 2 eexists; split; reflexivity.
Qed.
(** with the coefficient of bis for instrument a among the parameters *)
Definition exd_decl (x : nat -> R) : heap * params :=
  let hp := set_new (exl_h x, ps_items exl_ps) "c1_bis_a" (mkParam (Some (x 60%nat)) (VBool true) None false) in (fst hp, with_items exl_ps (snd hp)).
Lemma exd_decl_params x : params_ok (fst (exd_decl x)) (snd (exd_decl x)).
Proof.
  split.
  - exists ["per"; "tp"; "e"; "w"; "k"]. split.
    + cbn; tauto.
    + apply nodup_strings. vm_compute. reflexivity.
    + intros n p Hn Hp. cbn in Hn. assert (n = 1%nat) as -> by lia. cbn in Hp. decompose [or] Hp; try contradiction; subst; vm_compute; tauto.
    + intros n p Hn Hp Hk. cbn in Hn. assert (n = 1%nat) as -> by lia. cbn in Hp.
      decompose [or] Hp; try contradiction; subst; try (cbn; tauto); exfalso; vm_compute in Hk; intuition discriminate.
  - split.
    + apply nodup_strings. vm_compute. reflexivity.
    + intros k l H. apply dget_in in H. cbn. cbn in H. decompose [or] H; try contradiction; match goal with E : (_, _) = _ |- _ => inversion E; lia end.
    + intros k k' l H H'. apply dget_in in H, H'. cbn in H, H'.
      decompose [or] H; try contradiction; match goal with E : (_, _) = (k, _) |- _ => inversion E; subst end;
      decompose [or] H'; try contradiction; match goal with E : (_, _) = (k', _) |- _ => inversion E; auto end.
Qed.
Lemma exd_decl_nolog x k : In k (dkeys (ps_items (snd (exd_decl x)))) -> ~ logjit_key k.
Proof. intros Hk KJ. apply starts_iff in KJ. cbn in Hk. decompose [or] Hk; try contradiction; subst; discriminate KJ. Qed.
Lemma exd_decl_stor x k : In k (dkeys (ps_items (snd (exd_decl x)))) -> exists p b, get_param (fst (exd_decl x)) (ps_items (snd (exd_decl x))) k = Some p /\ p_vary p = VBool b.
Proof. intros Hk. cbn in Hk. decompose [or] Hk; try contradiction; subst; do 2 eexists; split; vm_compute; reflexivity. Qed.
(** decorrelation variables beside kernels *)
Definition exd_gp (x : nat -> R) : setup :=
  mkSetup (snd (exs_gp x)) "per tp e w k" (Some ["bis"; "fwhm"]) 2 ["a"; "b"] [exd_obs x "a" 20; exd_obs x "b" 23; exd_obs x "a" 29]
    (Some [("a", ["gp_B"; "gp_C"; "gp_L"; "gp_Prot"]); ("b", ["gp_length"; "gp_amp_b"; "gp_per"])])
    (Some [("a", "Celerite"); ("b", "Per")]).
Lemma exd_gp_columns x nm : has_columns (exd_gp x) ["bis"; "fwhm"] nm.
Proof. intros o v Ho _ Hv. cbn in Ho. destruct Ho as [<-|[<-|[<-|[]]]]; exact Hv. Qed.
