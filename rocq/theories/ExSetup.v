(** Concrete setup files for the examples of PropertiesSetup.v. *)
From Coq Require Import Reals String Arith Bool Lia Lra Permutation List.
From Verif Require Import Py PyFloat PyFacts Params ParamsProofs ParamsSpec VectorProofs Basis BasisExtra RVModel Likelihood LikeBuild BasisModel BasisThms ExLike Gp Setup SetupSpec SetupProofs SetupThms SetupMain.
Import ListNotations.
Open Scope string_scope.

Definition exs_obs (x : nat -> R) (t : string) (i : nat) : obs := mkObs (x i) (x (i + 1)%nat) (x (i + 2)%nat) t [].
(** three instruments in the data, two of them listed *)
Definition exs_P (x : nat -> R) (insts : list string) : setup :=
  mkSetup exl_ps "per tp e w k" None 2 insts
    [exs_obs x "a" 20; exs_obs x "b" 23; exs_obs x "c" 26; exs_obs x "a" 29] None None.
Definition exs_sort (l : list R) : list nat := seq 0 (length l).
Lemma exs_sort_perm l : Permutation (exs_sort l) (seq 0 (length l)). Proof. apply Permutation_refl. Qed.

Lemma nodup_nat l : (if ListDec.NoDup_dec Nat.eq_dec l then true else false) = true -> NoDup l.
Proof. destruct (ListDec.NoDup_dec Nat.eq_dec l); congruence. Qed.

Lemma exs_params x : params_ok (exl_h x) exl_ps.
Proof.
  split; [exists ["per"; "tp"; "e"; "w"; "k"]; exact exl_layout|]. split.
  - apply exl_layout.
  - intros k l H. apply dget_in in H. unfold exl_h. rewrite map_length, seq_length. cbn in H. decompose [or] H; try contradiction; match goal with E : (_, _) = _ |- _ => inversion E; lia end.
  - intros k k' l H H'. apply dget_in in H, H'. cbn in H, H'.
    decompose [or] H; try contradiction; match goal with E : (_, _) = (k, _) |- _ => inversion E; subst end;
    decompose [or] H'; try contradiction; match goal with E : (_, _) = (k', _) |- _ => inversion E; auto end.
Qed.

Lemma exs_nolog : forall k, In k (dkeys (ps_items exl_ps)) -> ~ logjit_key k.
Proof. intros k Hk KJ. apply starts_iff in KJ. cbn in Hk. decompose [or] Hk; try contradiction; subst; discriminate KJ. Qed.
Lemma exs_stor x : forall k, In k (dkeys (ps_items exl_ps)) -> exists p b, get_param (exl_h x) (ps_items exl_ps) k = Some p /\ p_vary p = VBool b.
Proof. intros k Hk. cbn in Hk. decompose [or] Hk; try contradiction; subst; do 2 eexists; split; vm_compute; reflexivity. Qed.
Lemma exs_rows x nm insts : In nm ["a"; "b"] -> has_rows (exs_P x insts) nm.
Proof. intros [<-|[<-|[]]]; [exists (exs_obs x "a" 20)|exists (exs_obs x "b" 23)]; cbn; auto. Qed.

Lemma exs_ok x : exists r, initialize_posterior exs_sort (exs_P x ["a"; "b"]) false (exl_h x) = Ok r.
Proof.
  destruct (complete exs_sort (exs_P x ["a"; "b"]) (exl_h x)) as (r & E & _); eauto.
  - apply exs_params.
  - apply exs_nolog.
  - apply exs_stor.
  - discriminate.
  - intros nm Hn. split; [now apply exs_rows|]. cbn in Hn. destruct Hn as [<-|[<-|[]]]; (split; [cbn; tauto|]); do 2 eexists; split; vm_compute; reflexivity.
Qed.

(** a deprecated name, in the last place or not *)
Definition exs_log (x : nat -> R) (last : bool) : heap * params :=
  let ks := ["per1"; "tp1"; "e1"; "w1"; "k1"; "gamma_a"] in
  let keys := if last then (ks ++ ["logjit_a"])%list else ("logjit_a" :: ks) in
  (map (fun i => mkParam (Some (x i)) (VBool true) None false) (seq 0 7),
   mkParams (combine keys (seq 0 7)) (basis_init "per tp e w k" 1) 1 (split "per tp e w k") None).
Definition exs_PL (x : nat -> R) (last : bool) : setup :=
  mkSetup (snd (exs_log x last)) "per tp e w k" None 2 ["a"] [exs_obs x "a" 20] None None.

Lemma exs_log_params x : params_ok (fst (exs_log x true)) (snd (exs_log x true)).
Proof.
  split.
  - exists ["per"; "tp"; "e"; "w"; "k"]. split.
    + cbn; tauto.
    + apply nodup_strings. vm_compute. reflexivity.
    + intros n p Hn Hp. cbn in Hn. assert (n = 1%nat) as -> by lia. cbn in Hp. decompose [or] Hp; try contradiction; subst; vm_compute; tauto.
    + intros n p Hn Hp Hk. cbn in Hn. assert (n = 1%nat) as -> by lia. cbn in Hp.
      decompose [or] Hp; try contradiction; subst; try (cbn; tauto); exfalso; vm_compute in Hk; intuition discriminate.
  - split.
    + apply nodup_strings. vm_compute. reflexivity.
    + intros k l H. apply dget_in in H. cbn. cbn in H. decompose [or] H; try contradiction; match goal with E : (_, _) = _ |- _ => inversion E; lia end.
    + intros k k' l H H'. apply dget_in in H, H'. cbn in H, H'.
      decompose [or] H; try contradiction; match goal with E : (_, _) = (k, _) |- _ => inversion E; subst end;
      decompose [or] H'; try contradiction; match goal with E : (_, _) = (k', _) |- _ => inversion E; auto end.
Qed.

Lemma exs_log_ok x : exists r, initialize_posterior exs_sort (exs_PL x true) false (fst (exs_log x true)) = Ok r.
Proof. eexists. vm_compute. reflexivity. Qed.

(** a celerite kernel for one instrument, a periodic one for the other *)
Definition exs_gp (x : nat -> R) : heap * params :=
  let keys := ["per1"; "tp1"; "e1"; "w1"; "k1"; "gamma_a"; "jit_a"; "gamma_b"; "jit_b"; "gp_B"; "gp_C"; "gp_L"; "gp_Prot"; "gp_amp_b"; "gp_length"; "gp_per"] in
  (map (fun i => mkParam (Some (x i)) (VBool true) None false) (seq 0 16),
   mkParams (combine keys (seq 0 16)) (basis_init "per tp e w k" 1) 1 (split "per tp e w k") None).
Definition exs_PG (x : nat -> R) (inst : string) : setup :=
  mkSetup (snd (exs_gp x)) "per tp e w k" None 2 [inst] [exs_obs x "a" 20; exs_obs x "b" 23; exs_obs x "a" 29]
    (Some [("a", ["gp_B"; "gp_C"; "gp_L"; "gp_Prot"]); ("b", ["gp_length"; "gp_amp_b"; "gp_per"])])
    (Some [("a", "Celerite"); ("b", "Per")]).
Lemma exs_gp_ok x :
  (exists r l, initialize_posterior exs_sort (exs_PG x "a") false (fst (exs_gp x)) = Ok r /\
     dget (i_likes r) "a" = Some (CeleriteLike ["gp_B"; "gp_C"; "gp_L"; "gp_Prot"], l)) /\
  (exists r l, initialize_posterior exs_sort (exs_PG x "b") false (fst (exs_gp x)) = Ok r /\
     dget (i_likes r) "b" = Some (GPLike "Per" ["gp_length"; "gp_amp_b"; "gp_per"], l)).
Proof. split; do 2 eexists; split; vm_compute; reflexivity. Qed.
