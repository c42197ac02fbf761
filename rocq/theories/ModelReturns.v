(** A model's call returns for every eccentricity its parameters can hold. *)
From Coq Require Import Reals String Ascii Arith ZArith Bool Lia Lra List.
From Verif Require Import Py PyFacts Params ParamsProofs ParamsSpec VectorProofs Kepler KeplerSpec RvProofs RvTerm KeplerProofs DanbyProofs OrbitProofs Basis BasisNum
  BasisProofs BasisConv VConv BasisModel BasisThms RVModel RVModelProofs ModelThms DanbyAll.
Import ListNotations.
Open Scope string_scope.
#[local] Arguments unkey : simpl never.
#[local] Arguments key : simpl never.

(** the call returns, whatever the eccentricities *)
Lemma set_call_always_returns h ps b names (E : nat -> elements) dvdt curv tb use_c t pn :
  params_ok h ps b names -> strict ps names -> flags_ok h ps ->
  (forall n, (1 <= n <= ps_num ps)%nat -> in_domain (E n) /\ holds h ps names n (meaning (E n))) ->
  t <> [] ->
  trend_value h ps "dvdt" dvdt -> trend_value h ps "curv" curv -> valid_planet (ps_num ps) pn ->
  exists m vel, rvmodel_init h ps tb = Ok m /\ rvmodel_call use_c 29 m t pn = Ok vel.
Proof.
  intros OK ST FL H HT TD TC HP. pose proof (po_fit _ _ _ _ OK) as HB.
  destruct (strict_vector h ps b names (fun n => meaning (E n)) OK ST FL) as (vec & V1 & V2).
  { intros n Hn. now apply H. }
  destruct (model_of_set h ps b names E vec OK V1 V2) as (w & W1 & W2).
  destruct (vector_trend h ps b names vec OK FL V1) as (I & D & C).
  destruct (call_succeeds use_c 29 (mkRVModel ps vec tb) t pn w dvdt curv) as [vel HV].
  - exact W1.
  - exists (5 * ps_num ps)%nat, (1 + 5 * ps_num ps)%nat. cbn [m_params m_vector].
    rewrite I, index_dvdt, index_curv. rewrite (row_at_trend _ _ _ _ _ _ TD D), (row_at_trend _ _ _ _ _ _ TC C). auto.
  - cbn [m_params]. intros n Hn. destruct (planets_valid ps pn n HP Hn) as (m & Hm & ->).
    rewrite (orbel_at_five w m _ (W2 m Hm)). eexists.
    destruct (rv_drive_always_returns use_c t (orb (els b (meaning (E (S m)))))) as [x Hx]; auto.
    exists x. split; [reflexivity|exact Hx].
  - exists (mkRVModel ps vec tb), vel. split; auto. unfold rvmodel_init. now rewrite V1.
Qed.

(** ** Solved *)
Lemma c_solves M e E0 : (0 <= e <= 99 / 100)%R -> is_ecc_anomaly e M E0 ->
  exists E, c_kepler M e = Ok E /\ (Rabs (E - E0) <= / 1000000000000 / (1 - e))%R.
Proof.
  intros He HE. destruct (c_always_returns M e He) as [E H]. exists E. split; auto.
  apply (kepler_accuracy e M E E0 _); [lra|now apply c_kepler_conv|auto].
Qed.

Lemma python_solves Ms es : length es = length Ms -> Ms <> [] ->
  (forall e, In e es -> (0 <= e <= 99 / 100)%R) ->
  exists v, kepler 29 Ms es = Ok v /\ length (npelems v) = length Ms /\
    forall i M e E0, nth_error Ms i = Some M -> nth_error es i = Some e -> is_ecc_anomaly e M E0 ->
      exists E, nth_error (npelems v) i = Some E /\ (Rabs (E - E0) <= / 1000000000000 / (1 - e))%R.
Proof.
  intros HL HN He. destruct (python_always_returns Ms es HL HN He) as [v H].
  exists v. split; auto. split; [now apply kepler_pointwise in H|].
  intros i M e E0 A B C. apply (python_solver_accurate 29 Ms es v HL H i M e E0 A B); auto.
  specialize (He e (nth_error_In _ _ B)). lra.
Qed.

Lemma backends_return_and_agree ts o : ts <> [] -> (0 <= o_e o <= 99 / 100)%R -> (0 < o_per o)%R ->
  exists v w, rv_drive true 29 ts o = Ok v /\ rv_drive false 29 ts o = Ok w /\
    length (npelems v) = length (npelems w) /\
    forall i x y, nth_error (npelems v) i = Some x -> nth_error (npelems w) i = Some y ->
      (Rabs (x - y) <= 2 * (Rabs (o_k o) * (sqrt ((1 + o_e o) / (1 - o_e o))
                                        * (/ 1000000000000 / (1 - o_e o)) + / 10 ^ 15)))%R.
Proof.
  intros HN He HP. destruct (rv_drive_always_returns true ts o HN) as [v V].
  destruct (rv_drive_always_returns false ts o HN) as [w W]. exists v, w.
  split; auto. split; auto. now apply (backends_close 29 ts o v w).
Qed.

Lemma velocity_given use_c ts o : ts <> [] -> (0 < o_e o <= 99 / 100)%R -> (0 < o_per o)%R ->
  exists v, rv_drive use_c 29 ts o = Ok v /\ length (npelems v) = length ts /\
  forall i t, nth_error ts i = Some t ->
   exists x rv, nth_error (npelems v) i = Some x /\
     is_rv (o_per o) (o_tp o) (o_e o) (o_om o) (o_k o) t rv /\
     (Rabs (x - rv) <= Rabs (o_k o) * (sqrt ((1 + o_e o) / (1 - o_e o))
                                      * (/ 1000000000000 / (1 - o_e o)) + / 10 ^ 15))%R.
Proof.
  intros HN He HP. destruct (rv_drive_always_returns use_c ts o HN) as [v V]. exists v. split; auto.
  now apply (rv_drive_accurate use_c 29).
Qed.

(** ** The two planets of the examples, on eccentric orbits *)
Definition far_E (n : nat) : elements :=
  (if Nat.eqb n 1 then mkEl 10 3 (9 / 10) 1 40 else mkEl 300 7 (97 / 100) 2 5)%R.
Definition far_h (names : list string) : heap := ex_heap names (fun n => meaning (far_E n)).

Lemma far_example : exists m vel,
  rvmodel_init (far_h ["per"; "tc"; "e"; "w"; "k"]) (ex_ps "per tc e w k" ["per"; "tc"; "e"; "w"; "k"]) 2 = Ok m /\
  rvmodel_call false 29 m [1; 5; 80]%R None = Ok vel.
Proof.
  assert (In ("per tc e w k", ["per"; "tc"; "e"; "w"; "k"]) FIT_BASES) as HF by (cbn; tauto).
  apply (set_call_always_returns (far_h ["per"; "tc"; "e"; "w"; "k"]) (ex_ps "per tc e w k" ["per"; "tc"; "e"; "w"; "k"])
    "per tc e w k" ["per"; "tc"; "e"; "w"; "k"] far_E 5 0).
  - now apply ex_params_ok.
  - now apply ex_strict.
  - now apply ex_flags.
  - intros n Hn. split.
    + unfold far_E, in_domain. destruct (Nat.eqb n 1); cbn; lra.
    + now apply (ex_holds "per tc e w k" _ (fun n => meaning (far_E n)) n).
  - discriminate.
  - reflexivity.
  - reflexivity.
  - exact I.
Qed.
