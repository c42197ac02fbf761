(** Property C87: the Kepler solvers, rv_drive and a model's call return. *)
From Coq Require Import Reals String Arith ZArith List Lra.
From Verif Require Import Py Params ParamsSpec ParamsProofs Kepler KeplerSpec RvProofs RvTerm Basis BasisExtra BasisThms RVModel
  RVModelProofs ModelThms DanbyAll ModelReturns.
Import ListNotations.
Open Scope string_scope.
Open Scope R_scope.

(** * C87 *)

(** Every mean anomaly and every eccentricity up to 0.99: the NumPy loop ends
    after at most 29 passes, and the C solver does not reach its cap of 30, where
    it would end the process. *)
Theorem C87_solvers_return :
  (forall Ms es, length es = length Ms -> Ms <> [] -> (forall e, In e es -> 0 <= e <= 99 / 100) ->
     exists v, kepler 29 Ms es = Ok v) /\
  (forall M e, 0 <= e <= 99 / 100 -> exists E, c_kepler M e = Ok E).
Proof. exact (conj python_always_returns c_always_returns). Qed.
Print Assumptions C87_solvers_return.

Example C87_solvers_ex :
  (exists v, kepler 29 [1 / 10; 3; -600] [19 / 20; 99 / 100; 0] = Ok v) /\
  (exists E, c_kepler (1 / 10) (99 / 100) = Ok E).
Proof.
  split.
  - apply (proj1 C87_solvers_return); [reflexivity|discriminate|].
    intros e [<-|[<-|[<-|[]]]]; lra.
  - apply (proj2 C87_solvers_return). lra.
Qed.

(** so the value they return is the eccentric anomaly within 1e-12 / (1 - e) *)
Theorem C87_c_solver_solves : forall M e E0, 0 <= e <= 99 / 100 -> is_ecc_anomaly e M E0 ->
  exists E, c_kepler M e = Ok E /\ Rabs (E - E0) <= / 1000000000000 / (1 - e).
Proof. exact c_solves. Qed.
Print Assumptions C87_c_solver_solves.

Theorem C87_python_solver_solves : forall Ms es, length es = length Ms -> Ms <> [] ->
  (forall e, In e es -> 0 <= e <= 99 / 100) ->
  exists v, kepler 29 Ms es = Ok v /\ length (npelems v) = length Ms /\
    forall i M e E0, nth_error Ms i = Some M -> nth_error es i = Some e -> is_ecc_anomaly e M E0 ->
      exists E, nth_error (npelems v) i = Some E /\ Rabs (E - E0) <= / 1000000000000 / (1 - e).
Proof. exact python_solves. Qed.
Print Assumptions C87_python_solver_solves.

Example C87_solves_ex : is_ecc_anomaly (9 / 10) (PI / 2 - 9 / 10) (PI / 2) /\
  exists E, c_kepler (PI / 2 - 9 / 10) (9 / 10) = Ok E /\ Rabs (E - PI / 2) <= / 1000000000000 / (1 - 9 / 10).
Proof.
  assert (is_ecc_anomaly (9 / 10) (PI / 2 - 9 / 10) (PI / 2)) as H by (unfold is_ecc_anomaly; rewrite sin_PI2; lra).
  split; [exact H|]. apply C87_c_solver_solves; [lra|exact H].
Qed.

(** Whatever the five elements (a negative eccentricity, one above 1, a negative
    or zero period), rv_drive returns with either back end. *)
Theorem C87_rv_drive_returns : forall use_c ts o, ts <> [] -> exists v, rv_drive use_c 29 ts o = Ok v.
Proof. exact rv_drive_always_returns. Qed.
Print Assumptions C87_rv_drive_returns.

Example C87_rv_drive_ex :
  (exists v, rv_drive false 29 [1; 2; 50] (mkOrbel 10 0 (97 / 100) 1 50) = Ok v) /\
  (exists v, rv_drive true 29 [1; 2; 50] (mkOrbel (-3) 0 2 1 50) = Ok v).
Proof. split; apply C87_rv_drive_returns; discriminate. Qed.

(** The back ends both return, and agree. *)
Theorem C87_back_ends_return_and_agree : forall ts o, ts <> [] -> 0 <= o_e o <= 99 / 100 -> 0 < o_per o ->
  exists v w, rv_drive true 29 ts o = Ok v /\ rv_drive false 29 ts o = Ok w /\
    length (npelems v) = length (npelems w) /\
    forall i x y, nth_error (npelems v) i = Some x -> nth_error (npelems w) i = Some y ->
      Rabs (x - y) <= 2 * (Rabs (o_k o) * (sqrt ((1 + o_e o) / (1 - o_e o))
                                        * (/ 1000000000000 / (1 - o_e o)) + / 10 ^ 15)).
Proof. exact backends_return_and_agree. Qed.
Print Assumptions C87_back_ends_return_and_agree.

(** So every eccentric orbit's velocities are given, within the solver's tolerance: with either back end a value
    comes back per time, near the Keplerian velocity of that time. *)
Theorem C87_velocities : forall use_c ts o, ts <> [] -> 0 < o_e o <= 99 / 100 -> 0 < o_per o ->
  exists v, rv_drive use_c 29 ts o = Ok v /\ length (npelems v) = length ts /\
  forall i t, nth_error ts i = Some t ->
   exists x rv, nth_error (npelems v) i = Some x /\
     is_rv (o_per o) (o_tp o) (o_e o) (o_om o) (o_k o) t rv /\
     Rabs (x - rv) <= Rabs (o_k o) * (sqrt ((1 + o_e o) / (1 - o_e o))
                                      * (/ 1000000000000 / (1 - o_e o)) + / 10 ^ 15).
Proof. exact velocity_given. Qed.
Print Assumptions C87_velocities.

Example C87_velocities_ex : exists v x rv, rv_drive true 29 [1; 2; 50] (mkOrbel 10 0 (97 / 100) 1 50) = Ok v /\
  nth_error (npelems v) 2 = Some x /\ is_rv 10 0 (97 / 100) 1 50 50 rv.
Proof.
  destruct (C87_velocities true [1; 2; 50] (mkOrbel 10 0 (97 / 100) 1 50)) as (v & V & _ & H); [discriminate|cbn; lra|cbn; lra|].
  destruct (H 2%nat 50 eq_refl) as (x & rv & A & B & _). exists v, x, rv. auto.
Qed.

(** A model over a valid parameter set in a fitting basis returns for every
    planet asked for and every eccentricity the set holds. *)
Theorem C87_model_call_returns : forall h ps b names (E : nat -> elements) dvdt curv tb use_c t pn,
  params_ok h ps b names -> strict ps names -> flags_ok h ps ->
  (forall n, (1 <= n <= ps_num ps)%nat -> in_domain (E n) /\ holds h ps names n (meaning (E n))) ->
  t <> [] ->
  trend_value h ps "dvdt" dvdt -> trend_value h ps "curv" curv -> valid_planet (ps_num ps) pn ->
  exists m vel, rvmodel_init h ps tb = Ok m /\ rvmodel_call use_c 29 m t pn = Ok vel.
Proof. exact set_call_always_returns. Qed.
Print Assumptions C87_model_call_returns.

Example C87_model_ex : exists m vel,
  rvmodel_init (far_h ["per"; "tc"; "e"; "w"; "k"]) (ex_ps "per tc e w k" ["per"; "tc"; "e"; "w"; "k"]) 2 = Ok m /\
  rvmodel_call false 29 m [1; 5; 80]%R None = Ok vel.
Proof. exact far_example. Qed.
