(** Concrete posteriors for the examples and counterexamples of C62. *)
From Coq Require Import Reals String Ascii Arith Bool Sorted Lia List.
From Verif Require Import Py PyFacts Params ParamsProofs ParamsSpec Basis ModelComp ModelCompSpec ModelCompProofs IcCompare IcSpec IcProofs IcLabels IcThms.
Import ListNotations.
Open Scope string_scope.

Definition xi_names : list string := ["per1"; "tp1"; "e1"; "w1"; "k1"; "dvdt"; "curv"; "gamma_a"; "jit_a"].
Definition xi_idx : dict nat := combine xi_names (seq 0 9).
Definition xi_env : menv := mkEnv xi_idx xi_names "per tp e w k" 1 None.
Definition xi_letter (s : string) : res string := if String.eqb s "1" then Ok "b" else Err (KeyError s).
Definition xi_L (m : nat) : string := "b".
Definition xi_fit (s : pst) : pst * res nat := (s, if Nat.eqb (length (m_rows s)) 9 then Ok 0%nat else Err PlainException).
Definition xi_post (flags : list bool) : pst := relist (mkPst (map (fun b => mkM (Fin 1) b) flags) None None).
(** everything free except the quadratic term *)
Definition xi_full : pst := xi_post [true; true; true; true; true; true; false; true; true].
(** semi-amplitude and eccentricity fixed *)
Definition xi_fixedk : pst := xi_post [true; true; false; false; false; true; false; true; true].

Lemma xi_ok : names_ok xi_env xi_letter "k" "e" xi_L 9.
Proof.
  split.
  - exists ["w"], ["per"; "tp"]. split; reflexivity.
  - intros k H. cbn in H. repeat (destruct H as [<-|H]; [eexists; split; [reflexivity|lia]|]). destruct H.
  - intros k H P. cbn in H. repeat (destruct H as [<-|H]; [first [discriminate P|exists 1%nat; split; [reflexivity|cbn; lia]]|]). destruct H.
  - intros k H P. cbn in H. repeat (destruct H as [<-|H]; [first [discriminate P|exists 1%nat; split; [reflexivity|cbn; lia]]|]). destruct H.
  - intros m H. assert (m = 1)%nat as -> by (cbn in H; lia). reflexivity.
  - intros m m' H H' _. cbn in *. lia.
  - intros k k' H H' P. cbn in H. repeat (destruct H as [<-|H]; [discriminate P|]). destruct H.
  - repeat (constructor; [cbn; intuition discriminate|]). constructor.
Qed.
Lemma xi_len s x : snd (xi_fit s) = Ok x -> length (m_rows (fst (xi_fit s))) = 9%nat.
Proof. unfold xi_fit. cbn. destruct (Nat.eqb_spec (length (m_rows s)) 9); [auto|discriminate]. Qed.

Definition xi_args (ts : list string) (mixed fix_ : bool) : icargs := mkArgs (Some ts) false (Some mixed) (Some fix_).
Definition xi_flags (s : pst) : dict bool := combine xi_names (map m_vary (m_rows s)).
(** labels of what is saved *)
Definition xi_labels (a : icargs) (s : pst) : res (list (list string)) :=
  do r <- snd (ic_compare nat xi_env xi_letter xi_fit a (mkIp s (xi_flags s)) []); Ok (map f_labels r).
Definition xi_frees (a : icargs) (s : pst) : res (list (list bool)) :=
  do r <- snd (ic_compare nat xi_env xi_letter xi_fit a (mkIp s (xi_flags s)) []); Ok (map (fun x => map m_vary (m_rows (f_model x))) r).

Lemma xi_unmixed : xi_labels (xi_args ["nplanets"; "jit"] false false) xi_full =
  Ok [["$\dot{\gamma}$"; "{$\sigma$}"]; ["$e_{b}$"; "$K_{b}$"; "$\dot{\gamma}$"; "{$\sigma$}"]; ["$e_{b}$"; "$K_{b}$"; "$\dot{\gamma}$"]].
Proof. reflexivity. Qed.
Definition xi_fl := fit_labelled nat xi_env xi_letter xi_fit.
Lemma xi_runs : exists E, runs xi_env xi_fl ["nplanets"; "jit"] xi_full E /\ length E = 4%nat.
Proof.
  eexists. split.
  - eapply runs_cons; [reflexivity|]. eapply runs_cons; [reflexivity|]. apply runs_nil.
  - reflexivity.
Qed.
Lemma xi_mixed : xi_labels (xi_args ["trend"; "jit"] true false) xi_full =
  Ok [["$e_{b}$"; "$K_{b}$"; "$\dot{\gamma}$"]; ["$e_{b}$"; "$K_{b}$"]; ["$e_{b}$"; "$K_{b}$"; "$\dot{\gamma}$"; "{$\sigma$}"]; ["$e_{b}$"; "$K_{b}$"; "{$\sigma$}"]].
Proof. reflexivity. Qed.

(** fixjitter: the jitter term stays free in every model *)
Lemma xi_fixjitter : exists r, snd (ic_compare nat xi_env xi_letter xi_fit (xi_args ["e"] true true) (mkIp xi_full (xi_flags xi_full)) []) = Ok r /\
  length r = 2%nat /\ Forall (fun x => free_key xi_env (f_model x) "jit_a") r.
Proof.
  eexists. split; [reflexivity|]. split; [reflexivity|].
  repeat (constructor; [exists 8%nat; split; [reflexivity|eexists; split; reflexivity]|]). constructor.
Qed.
(** a planet with fixed semi-amplitude and eccentricity: the model with the planet is not reported *)
Lemma xi_dropped : xi_frees (xi_args ["nplanets"] false false) xi_fixedk = Ok [[false; false; false; false; false; true; false; true; true]] /\
  exists E x, runs xi_env xi_fl ["nplanets"] xi_fixedk E /\ In x E /\ map m_vary (m_rows (f_model x)) = [true; true; false; false; false; true; false; true; true].
Proof.
  split; [reflexivity|]. do 2 eexists. split; [eapply runs_cons; [reflexivity|apply runs_nil]|]. split; [right; left; reflexivity|reflexivity].
Qed.
(** a second comparison in the same process repeats the first *)
Lemma xi_again : exists d r, ic_compare nat xi_env xi_letter xi_fit (xi_args ["e"] true false) (mkIp xi_full []) [] = (d, Ok d) /\
  ic_compare nat xi_env xi_letter xi_fit (xi_args ["e"] true false) (mkIp xi_full []) d = (r, Ok r) /\ length d = 2%nat /\ length r = 4%nat.
Proof. do 2 eexists. repeat split; reflexivity. Qed.
Lemma xi_firsts : firsts eq [1; 2; 1]%nat [1; 2]%nat.
Proof.
  exists [0; 1]%nat. split; [repeat constructor|]. split; [repeat constructor|]. intro i. split.
  - intros [<-|[<-|[]]]; eexists; (split; [reflexivity|]); intros j y Hj Ey E; [lia|].
    assert (j = 0)%nat as -> by lia. cbn in Ey. congruence.
  - intros (x & Ex & N). destruct i as [|[|[|i]]]; cbn; auto.
    + exfalso. apply (N 0%nat 1%nat); cbn in *; [lia|reflexivity|congruence].
    + cbn in Ex. destruct i; discriminate.
Qed.
