(** Property theorems C62: the models reported by `radvel ic`. *)
From Coq Require Import Reals String Ascii Arith Bool Sorted List.
From Verif Require Import Py Params Basis ModelComp ModelCompSpec IcCompare IcSpec IcProofs IcLabels IcThms ExIc.
Import ListNotations.
Open Scope string_scope.

(** * C62 *)
(** Two models have the same labels (as multisets) exactly if the same labelled parameters are
    free and both or neither have a free jitter term. *)
Theorem C62_labels : forall env letter kp ep L n, names_ok env letter kp ep L n ->
  forall s1 s2, length (m_rows s1) = n -> length (m_rows s2) = n ->
  exists l1 l2, labels env letter s1 = Ok l1 /\ labels env letter s2 = Ok l2 /\ NoDup l1 /\
    ((forall x, count_occ string_dec l1 x = count_occ string_dec l2 x) <-> same_free env kp ep s1 s2).
Proof. exact labels_iff. Qed.
Print Assumptions C62_labels.

Example C62_labels_ex : names_ok xi_env xi_letter "k" "e" xi_L 9 /\ length (m_rows xi_full) = 9%nat /\ labels xi_env xi_letter xi_fixedk = Ok ["$\dot{\gamma}$"; "{$\sigma$}"].
Proof. split; [exact xi_ok|split; reflexivity]. Qed.

(** Un-mixed: of all models of the given comparisons, one after the other, the first of each
    kind is reported, in the order of fitting. *)
Theorem C62_unmixed_partial : forall X env letter (fit : pst -> pst * res X) kp ep L n,
  names_ok env letter kp ep L n -> (forall s x, snd (fit s) = Ok x -> length (m_rows (fst (fit s))) = n) ->
  forall a post ts E, a_simple a = false -> a_mixed a = Some false -> a_type a = Some ts -> ts <> [] -> incl ts COMPARISONS ->
  runs env (fit_labelled X env letter fit) ts (ip_post post) E ->
  exists r, ic_compare X env letter fit a post [] = (E, Ok r) /\ firsts (fun x y => same_free env kp ep (f_model x) (f_model y)) E r.
Proof. exact (@unmixed_free). Qed.
Print Assumptions C62_unmixed_partial.

Example C62_unmixed_partial_ex : exists E r,
  ic_compare nat xi_env xi_letter xi_fit (xi_args ["nplanets"; "jit"] false false) (mkIp xi_full []) [] = (E, Ok r) /\
  firsts (fun x y => same_free xi_env "k" "e" (f_model x) (f_model y)) E r /\ length E = 4%nat.
Proof.
  destruct xi_runs as (E & R & H). exists E.
  destruct (C62_unmixed_partial nat xi_env xi_letter xi_fit "k" "e" xi_L 9 xi_ok xi_len (xi_args ["nplanets"; "jit"] false false) (mkIp xi_full []) ["nplanets"; "jit"] E) as (r & A & B);
    try reflexivity; [discriminate| |exact R|exists r; auto]. intros x I. cbn in *. tauto.
Qed.

(** It works exactly if all comparisons are known and can be fitted; earlier results [d] in the same
    process are reported as well. *)
Theorem C62_unmixed_general : forall X env letter (fit : pst -> pst * res X) a post ts,
  a_simple a = false -> a_mixed a = Some false -> a_type a = Some ts -> ts <> [] -> forall d,
  (forall E, incl ts COMPARISONS -> runs env (fit_labelled X env letter fit) ts (ip_post post) E ->
    exists r, ic_compare X env letter fit a post d = ((d ++ E)%list, Ok r) /\
      firsts (fun x y => counter_eq (f_labels x) (f_labels y) = true) (d ++ E) r) /\
  (forall d1 r, ic_compare X env letter fit a post d = (d1, Ok r) -> incl ts COMPARISONS /\ exists E, runs env (fit_labelled X env letter fit) ts (ip_post post) E).
Proof. exact (@unmixed_main). Qed.
Print Assumptions C62_unmixed_general.

(** What "first of each kind" means: part of the list, no two alike, nothing unrepresented. *)
Theorem C62_firsts : forall A (R : A -> A -> Prop) (Rd : forall a b, {R a b} + {~ R a b}) l r,
  (forall a, R a a) -> (forall a b c, R a b -> R b c -> R a c) -> firsts R l r ->
  incl r l /\ (forall p q a b, (p < q)%nat -> nth_error r p = Some a -> nth_error r q = Some b -> ~ R a b) /\
  (forall x, In x l -> exists y, In y r /\ R y x).
Proof. exact firsts_means. Qed.
Print Assumptions C62_firsts.

Example C62_firsts_ex : firsts eq [1; 2; 1]%nat [1; 2]%nat.
Proof. exact xi_firsts. Qed.

(** Mixed: the models of the combined comparison. *)
Theorem C62_mixed : forall X env letter (fit : pst -> pst * res X) a post ts,
  a_simple a = false -> a_mixed a <> Some false -> a_type a = Some ts -> incl ts COMPARISONS ->
  forall d p E o, model_comp (fitted X) env (fit_labelled X env letter fit) ts (ip_post post) [] = (p, E, o) ->
    ic_compare X env letter fit a post d = ((d ++ E)%list, match o with Ok _ => Ok (d ++ E)%list | Err e => Err e end).
Proof. exact (@mixed_main). Qed.
Print Assumptions C62_mixed.

Example C62_mixed_ex : xi_labels (xi_args ["trend"; "jit"] true false) xi_full =
  Ok [["$e_{b}$"; "$K_{b}$"; "$\dot{\gamma}$"]; ["$e_{b}$"; "$K_{b}$"]; ["$e_{b}$"; "$K_{b}$"; "$\dot{\gamma}$"; "{$\sigma$}"]; ["$e_{b}$"; "$K_{b}$"; "{$\sigma$}"]].
Proof. exact xi_mixed. Qed.

(** Without -t the command always fails: the default is a text, not a list. *)
Theorem C62_default_type_refuted : forall X env letter (fit : pst -> pst * res X) a post d,
  a_simple a = false -> a_type a = None -> ic_compare X env letter fit a post d = (d, Err AssertionError).
Proof. exact (@bad_type). Qed.
Print Assumptions C62_default_type_refuted.

(** --fixjitter makes no difference, so with it jitter terms stay free. *)
Theorem C62_fixjitter_ignored : forall X env letter (fit : pst -> pst * res X) a post d f,
  ic_compare X env letter fit (mkArgs (a_type a) (a_simple a) (a_mixed a) f) post d = ic_compare X env letter fit a post d.
Proof. exact (@jitter_ignored). Qed.
Print Assumptions C62_fixjitter_ignored.

Theorem C62_fixjitter_refuted : exists r,
  snd (ic_compare nat xi_env xi_letter xi_fit (xi_args ["e"] true true) (mkIp xi_full (xi_flags xi_full)) []) = Ok r /\
  length r = 2%nat /\ Forall (fun x => free_key xi_env (f_model x) "jit_a") r.
Proof. exact xi_fixjitter. Qed.
Print Assumptions C62_fixjitter_refuted.

(** Models that differ in parameters without label are taken for the same: here the model with
    the planet, which has other free parameters, is not reported. *)
Theorem C62_distinct_refuted :
  xi_frees (xi_args ["nplanets"] false false) xi_fixedk = Ok [[false; false; false; false; false; true; false; true; true]] /\
  exists E x, runs xi_env xi_fl ["nplanets"] xi_fixedk E /\ In x E /\ map m_vary (m_rows (f_model x)) = [true; true; false; false; false; true; false; true; true].
Proof. exact xi_dropped. Qed.
Print Assumptions C62_distinct_refuted.

(** A second comparison in the same process reports the models of the first again. *)
Theorem C62_again_refuted : exists d r, ic_compare nat xi_env xi_letter xi_fit (xi_args ["e"] true false) (mkIp xi_full []) [] = (d, Ok d) /\
  ic_compare nat xi_env xi_letter xi_fit (xi_args ["e"] true false) (mkIp xi_full []) d = (r, Ok r) /\ length d = 2%nat /\ length r = 4%nat.
Proof. exact xi_again. Qed.
Print Assumptions C62_again_refuted.
