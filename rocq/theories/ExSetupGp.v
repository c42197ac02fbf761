(** A setup file with a celerite kernel for one instrument and a periodic one for the other, for the examples of PropertiesSetup.v. *)
From Coq Require Import Reals String Arith Bool Lia Lra Permutation List.
From Verif Require Import Py PyFloat PyFacts Params ParamsProofs ParamsSpec VectorProofs Basis BasisExtra RVModel Likelihood LikeBuild BasisModel BasisThms ExLike Gp Setup SetupSpec SetupProofs SetupThms SetupMain ExSetup SetupGpSpec SetupGp.
Import ListNotations.
Open Scope string_scope.

Lemma exs_gp_params x : params_ok (fst (exs_gp x)) (snd (exs_gp x)).
Proof.
  split.
  - exists ["per"; "tp"; "e"; "w"; "k"]. split.
    + cbn; tauto.
    + apply nodup_strings. vm_compute. reflexivity.
    + intros n p Hn Hp. cbn in Hn. assert (n = 1%nat) as -> by lia. cbn in Hp. decompose [or] Hp; try contradiction; subst; vm_compute; tauto.
    + intros n p Hn Hp Hk. cbn in Hn. assert (n = 1%nat) as -> by lia. cbn in Hp.
      decompose [or] Hp; try contradiction; subst; try (cbn; tauto); exfalso; vm_compute in Hk; intuition discriminate.
  - split.
    + apply nodup_strings. vm_compute. reflexivity.
    + intros k l H. apply dget_in in H. cbn. cbn in H. decompose [or] H; try contradiction; match goal with E : (_, _) = _ |- _ => inversion E; lia end.
    + intros k k' l H H'. apply dget_in in H, H'. cbn in H, H'.
      decompose [or] H; try contradiction; match goal with E : (_, _) = (k, _) |- _ => inversion E; subst end;
      decompose [or] H'; try contradiction; match goal with E : (_, _) = (k', _) |- _ => inversion E; auto end.
Qed.
Definition exs_P2 (x : nat -> R) : setup :=
  mkSetup (snd (exs_gp x)) "per tp e w k" None 2 ["a"; "b"] [exs_obs x "a" 20; exs_obs x "b" 23; exs_obs x "a" 29]
    (Some [("a", ["gp_B"; "gp_C"; "gp_L"; "gp_Prot"]); ("b", ["gp_length"; "gp_amp_b"; "gp_per"])])
    (Some [("a", "Celerite"); ("b", "Per")]).
Lemma no_length_b : ~ contains "length" "b".
Proof. intros (a & c & E). destruct a as [|u a]; [discriminate|]. destruct a; discriminate. Qed.
Lemma exs_process x nm : In nm ["a"; "b"] -> process_for (exs_P2 x) nm.
Proof.
  intros [<-|[<-|[]]]; do 4 eexists; (split; [reflexivity|]); (split; [reflexivity|]); (split; [reflexivity|]).
  - split; [right; right; right; left; reflexivity|]. split; [|intros s [<-|[<-|[<-|[<-|[]]]]]; cbn; tauto].
    split; [apply nodup_strings; reflexivity|]. split; [reflexivity|]. intros p Hp. left. exact Hp.
  - split; [right; left; reflexivity|]. split; [|intros s [<-|[<-|[<-|[]]]]; cbn; tauto].
    split; [apply nodup_strings; reflexivity|]. split; [reflexivity|]. intros p [<-|[<-|[<-|[]]]]; [left; cbn; tauto| |left; cbn; tauto].
    right. exists "b". split; [cbn; tauto|exact no_length_b].
Qed.
Lemma exs_gp_complete x : exists r, initialize_posterior exs_sort (exs_P2 x) false (fst (exs_gp x)) = Ok r /\ ps_items (i_params r) = ps_items (snd (exs_gp x)).
Proof.
  destruct (complete_gp exs_sort (exs_P2 x) (fst (exs_gp x))) as (r & E & A & _); eauto.
  - apply exs_gp_params.
  - intros k Hk KJ. apply starts_iff in KJ. cbn in Hk. decompose [or] Hk; try contradiction; subst; discriminate KJ.
  - intros k Hk. cbn in Hk. decompose [or] Hk; try contradiction; subst; do 2 eexists; split; vm_compute; reflexivity.
  - discriminate.
  - intros nm Hn. split; [|split; [now apply exs_process|]].
    + destruct Hn as [<-|[<-|[]]]; [exists (exs_obs x "a" 20)|exists (exs_obs x "b" 23)]; cbn; auto.
    + cbn in Hn. destruct Hn as [<-|[<-|[]]]; (split; [cbn; tauto|]); do 2 eexists; split; vm_compute; reflexivity.
Qed.
(** only one of the two with a process *)
Definition exs_P3 (x : nat -> R) : setup :=
  mkSetup (snd (exs_gp x)) "per tp e w k" None 2 ["a"; "b"] [exs_obs x "a" 20; exs_obs x "b" 23; exs_obs x "a" 29]
    (Some [("b", ["gp_length"; "gp_amp_b"; "gp_per"])]) (Some [("b", "Per")]).
