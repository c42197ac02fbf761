(** Example for C74: two planets, three parameters sampled. *)
From Coq Require Import Reals String Arith Bool Lia Lra List.
From Verif Require Import Py Params ParamsProofs ParamsSpec Basis BasisProofs BasisConv BasisThms PostProc RepChains RepChainsSpec.
Import ListNotations.
Open Scope R_scope.
Open Scope string_scope.

Definition xr_b := "per tc se w k".
Definition xr_names := ["per"; "tc"; "se"; "w"; "k"].
Definition xr_val (n : nat) (p : string) : R := meaning (ex_E n) p.
Definition xr_h := ex_heap xr_names xr_val.
Definition xr_ps := ex_ps xr_b xr_names.
Definition xr_chains : table := mkTable 2 [("per1", [10; 11]); ("se1", [1 / 2; 1 / 3]); ("k2", [4; 6]); ("lnprobability", [-1; -2])].
Definition xr_derived : dict (list R) := [("mpsini1", [7; 8]); ("lnprobability", [0; 1])].

Lemma xr_fit : In (xr_b, xr_names) FIT_BASES. Proof. unfold FIT_BASES, xr_b, xr_names. cbn. tauto. Qed.
Lemma xr_ok : params_ok xr_h xr_ps xr_b xr_names. Proof. apply ex_params_ok, xr_fit. Qed.
Lemma xr_all : all_values xr_h xr_ps.
Proof.
  intros k Hk. assert (dkeys (ps_items xr_ps) = ex_keys xr_names) as E by reflexivity. rewrite E in Hk.
  unfold ex_keys, xr_names in Hk. cbn [map app] in Hk. repeat destruct Hk as [<-|Hk]; try contradiction; eexists; reflexivity.
Qed.
Lemma xr_table : table_ok xr_chains.
Proof. intros k col. cbn [xr_chains t_cols t_len dget]. repeat (destruct (String.eqb k _); [intros [= <-]; reflexivity|]). discriminate. Qed.
Lemma xr_holds n : (1 <= n <= ps_num xr_ps)%nat -> values_in_range xr_names (xr_val n) /\ holds xr_h xr_ps xr_names n (xr_val n).
Proof.
  intro Hn. split; [|apply ex_holds; [apply xr_fit|exact Hn]]. intros _. unfold xr_val, ex_E. destruct (Nat.eqb n 1); apply sqrt_pos.
Qed.
Lemma xr_se n col x : dget (t_cols xr_chains) (key "se" n) = Some col -> In x col -> 0 <= x.
Proof.
  cbn [xr_chains t_cols dget]. 
  repeat match goal with |- context [String.eqb (key "se" n) ?s] => destruct (String.eqb (key "se" n) s) eqn:?; [intros [= <-]; cbn; intuition (subst; try lra)|] end; try discriminate.
  all: match goal with H : String.eqb _ _ = true |- _ => apply String.eqb_eq in H; discriminate H end.
Qed.
Lemma xr_nodup : NoDup (dkeys xr_derived).
Proof. repeat constructor; cbn; intuition discriminate. Qed.
