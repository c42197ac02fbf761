(** Property theorems C08-C16: basis conversions, parameter sets, vectors,
    the RV model. *)
From Coq Require Import Reals String List ZArith Lra Lia.
From Verif Require Import Py Params ParamsProofs ParamsSpec VectorProofs Kepler KeplerSpec Basis BasisNum BasisProofs
  BasisConv VConv BasisModel BasisThms RVModel RVModelProofs ModelThms PickleProofs BasisExtra.
Import ListNotations.
Open Scope string_scope.

(** * C08 *)

(** Between any two of the nine bases: the converted set holds, planet by
    planet, the values that the target's parameters have for the same orbit. *)
Theorem C08_conversion_keeps_elements : forall h ps b names b' names' (E : nat -> elements),
  params_ok h ps b names -> In (b', names') FIT_BASES ->
  (forall n, (1 <= n <= ps_num ps)%nat -> in_domain (E n) /\ holds h ps names n (meaning (E n))) ->
  exists h' ps' out E', convert h ps b' = Ok (h', ps', Some out) /\
    params_ok h' out b' names' /\ ps_num out = ps_num ps /\
    forall n, (1 <= n <= ps_num ps)%nat ->
      recovered names (E n) (E' n) /\ holds h' out names' n (meaning (E' n)).
Proof. exact convert_elements. Qed.
Print Assumptions C08_conversion_keeps_elements.

Example C08_conversion_keeps_elements_ex :
  params_ok (ex_h ["per"; "tc"; "secosw"; "sesinw"; "logk"])
            (ex_ps "per tc secosw sesinw logk" ["per"; "tc"; "secosw"; "sesinw"; "logk"])
            "per tc secosw sesinw logk" ["per"; "tc"; "secosw"; "sesinw"; "logk"] /\
  In ("logper tp e w logk", ["logper"; "tp"; "e"; "w"; "logk"]) FIT_BASES /\
  forall n, (1 <= n <= 2)%nat -> in_domain (ex_E n) /\
    holds (ex_h ["per"; "tc"; "secosw"; "sesinw"; "logk"])
          (ex_ps "per tc secosw sesinw logk" ["per"; "tc"; "secosw"; "sesinw"; "logk"])
          ["per"; "tc"; "secosw"; "sesinw"; "logk"] n (meaning (ex_E n)).
Proof.
  destruct (ex_ready "per tc secosw sesinw logk" ["per"; "tc"; "secosw"; "sesinw"; "logk"]) as (A & _ & _ & B); [cbn; tauto|].
  split; [exact A|]. split; [cbn; tauto|exact B].
Qed.

(** Synth -> b -> synth. For the full claim tp would have to be recovered at
    e = 0 too; see C08_circular_tp_refuted. *)
Theorem C08_synth_to_basis_and_back_partial : forall h ps b names noVary (E : nat -> elements),
  params_ok h ps "per tp e w k" SYNTH -> ps_pp ps = SYNTH -> In (b, names) FIT_BASES ->
  (forall n, (1 <= n <= ps_num ps)%nat -> in_domain (E n) /\ holds h ps SYNTH n (meaning (E n))) ->
  exists h1 self out1 h2 out2 E', from_synth h (ps_basis ps) ps b false = Ok (h1, self, Some out1) /\
    to_synth h1 (ps_basis out1) out1 noVary None = Ok (h2, out2) /\
    forall n, (1 <= n <= ps_num ps)%nat ->
      holds h1 out1 names n (meaning (E n)) /\
      holds h2 out2 SYNTH n (meaning (E' n)) /\ recovered names (E n) (E' n).
Proof. exact synth_and_back. Qed.
Print Assumptions C08_synth_to_basis_and_back_partial.

Example C08_synth_to_basis_and_back_ex :
  params_ok (ex_h SYNTH) (ex_ps "per tp e w k" SYNTH) "per tp e w k" SYNTH /\
  ps_pp (ex_ps "per tp e w k" SYNTH) = SYNTH /\
  forall n, (1 <= n <= 2)%nat -> in_domain (ex_E n) /\
    holds (ex_h SYNTH) (ex_ps "per tp e w k" SYNTH) SYNTH n (meaning (ex_E n)).
Proof.
  destruct (ex_ready "per tp e w k" SYNTH) as (A & _ & _ & B); [cbn; tauto|]. split; [exact A|]. split; [reflexivity|exact B].
Qed.

(** b -> synth -> b reproduces every value. *)
Theorem C08_basis_to_synth_and_back : forall h ps b names noVary self (val : nat -> string -> R),
  params_ok h ps b names -> b_num self = ps_num ps ->
  (forall n, (1 <= n <= ps_num ps)%nat -> values_in_range names (val n) /\ holds h ps names n (val n)) ->
  exists h1 out1 h2 self' out2, to_synth h (ps_basis ps) ps noVary None = Ok (h1, out1) /\
    from_synth h1 self out1 b false = Ok (h2, self', Some out2) /\
    forall n, (1 <= n <= ps_num ps)%nat -> holds h2 out2 names n (val n).
Proof. exact basis_and_back. Qed.
Print Assumptions C08_basis_to_synth_and_back.

Example C08_basis_to_synth_and_back_ex :
  let names := ["per"; "tc"; "se"; "w"; "k"] in
  params_ok (ex_h names) (ex_ps "per tc se w k" names) "per tc se w k" names /\
  forall n, (1 <= n <= 2)%nat -> values_in_range names (meaning (ex_E n)) /\
    holds (ex_h names) (ex_ps "per tc se w k" names) names n (meaning (ex_E n)).
Proof.
  intro names. destruct (ex_ready "per tc se w k" names) as (A & _ & _ & B); [cbn; tauto|]. split; [exact A|].
  intros n Hn. split; [apply ex_range|now apply B].
Qed.

(** A circular orbit with omega = pi, tp = 0, period 1: after a round trip
    through "per tc secosw sesinw k", tp is half a period away. *)
Theorem C08_circular_tp_refuted :
  exists h ps h1 ps1 out1 h2 ps2 out2,
    params_ok h ps "per tp e w k" SYNTH /\
    holds h ps SYNTH 1 (meaning (mkEl 1 0 0 PI 1)) /\
    convert h ps "per tc secosw sesinw k" = Ok (h1, ps1, Some out1) /\
    convert h1 out1 "per tp e w k" = Ok (h2, ps2, Some out2) /\
    value_at h2 out2 "tp1" = Some (- (1 / 2))%R.
Proof. exact circular_tp_moves. Qed.
Print Assumptions C08_circular_tp_refuted.

(** * C09 *)
Theorem C09_to_synth_agrees : forall h ps b names noVary (val : nat -> string -> R),
  params_ok h ps b names -> strict ps names -> flags_ok h ps ->
  (forall n, (1 <= n <= ps_num ps)%nat -> holds h ps names n (val n)) ->
  exists vec h' out v', vector_init h ps = Ok vec /\
    to_synth h (ps_basis ps) ps noVary None = Ok (h', out) /\
    v_to_synth (ps_basis ps) (v_vector vec) noVary None = Ok v' /\ length v' = length (v_vector vec) /\
    (forall i, (5 * ps_num ps <= i)%nat -> nth_error v' i = nth_error (v_vector vec) i) /\
    forall n j p, (1 <= n <= ps_num ps)%nat -> nth_error SYNTH j = Some p ->
      exists x, value_at h' out (key p n) = Some x /\ rowval v' (5 * (n - 1) + j) = Some x.
Proof. exact to_synth_agree. Qed.
Print Assumptions C09_to_synth_agrees.

Theorem C09_from_synth_agrees : forall h ps b' names' (val : nat -> string -> R),
  params_ok h ps "per tp e w k" SYNTH -> strict ps SYNTH -> flags_ok h ps -> ps_pp ps = SYNTH ->
  In (b', names') FIT_BASES ->
  (forall n, (1 <= n <= ps_num ps)%nat -> holds h ps SYNTH n (val n)) ->
  exists vec h' self' out v', vector_init h ps = Ok vec /\
    from_synth h (ps_basis ps) ps b' false = Ok (h', self', Some out) /\
    v_from_synth (ps_basis ps) (v_vector vec) b' = Ok v' /\ length v' = length (v_vector vec) /\
    (forall i, (5 * ps_num ps <= i)%nat -> nth_error v' i = nth_error (v_vector vec) i) /\
    forall n j p, (1 <= n <= ps_num ps)%nat -> nth_error names' j = Some p ->
      exists x, value_at h' out (key p n) = Some x /\ rowval v' (5 * (n - 1) + j) = Some x.
Proof. exact from_synth_agree. Qed.
Print Assumptions C09_from_synth_agrees.

Theorem C09_to_any_basis_agrees : forall h ps b names b' names' (val : nat -> string -> R),
  params_ok h ps b names -> strict ps names -> flags_ok h ps -> In (b', names') FIT_BASES ->
  (forall n, (1 <= n <= ps_num ps)%nat -> holds h ps names n (val n)) ->
  exists vec h' ps' out v', vector_init h ps = Ok vec /\
    convert h ps b' = Ok (h', ps', Some out) /\
    v_to_any_basis (ps_basis ps) (v_vector vec) b' = Ok v' /\ length v' = length (v_vector vec) /\
    (forall i, (5 * ps_num ps <= i)%nat -> nth_error v' i = nth_error (v_vector vec) i) /\
    forall n j p, (1 <= n <= ps_num ps)%nat -> nth_error names' j = Some p ->
      exists x, value_at h' out (key p n) = Some x /\ rowval v' (5 * (n - 1) + j) = Some x.
Proof. exact to_any_agree. Qed.
Print Assumptions C09_to_any_basis_agrees.

Example C09_ex : forall b names, In (b, names) FIT_BASES ->
  params_ok (ex_h names) (ex_ps b names) b names /\ strict (ex_ps b names) names /\
  flags_ok (ex_h names) (ex_ps b names) /\ ps_num (ex_ps b names) = 2%nat /\
  forall n, (1 <= n <= 2)%nat -> holds (ex_h names) (ex_ps b names) names n (meaning (ex_E n)).
Proof.
  intros b names HF. destruct (ex_ready b names HF) as (A & B & C & D). split; [exact A|]. split; [exact B|].
  split; [exact C|]. split; [reflexivity|]. intros n Hn. now apply D.
Qed.

(** * C10 *)

(** [params.basis.to_any_basis(params, new)]: every Parameter object that
    existed before is unchanged, the caller's dictionary is unchanged and
    the result's non-orbital entries are the caller's. *)
Theorem C10_to_any_basis_frame : forall h ps b names b' names' (val : nat -> string -> R),
  params_ok h ps b names -> In (b', names') FIT_BASES ->
  (forall n, (1 <= n <= ps_num ps)%nat -> holds h ps names n (val n)) ->
  exists h' ps' out, convert h ps b' = Ok (h', ps', Some out) /\
    ps_items ps' = ps_items ps /\ ps_num ps' = ps_num ps /\ ps_letters ps' = ps_letters ps /\
    (forall l, (l < length h)%nat -> nth_error h' l = nth_error h l) /\
    (forall k, In k (dkeys (ps_items ps)) -> get_param h' (ps_items ps') k = get_param h (ps_items ps) k) /\
    (forall k, non_orbital (ps_num ps) k -> get_param h' (ps_items out) k = get_param h (ps_items ps) k) /\
    ps_num out = ps_num ps /\ ps_letters out = ps_letters ps.
Proof. exact convert_frame. Qed.
Print Assumptions C10_to_any_basis_frame.

Theorem C10_to_synth_frame : forall h ps b names noVary (val : nat -> string -> R),
  params_ok h ps b names ->
  (forall n, (1 <= n <= ps_num ps)%nat -> holds h ps names n (val n)) ->
  exists h' out, to_synth h (ps_basis ps) ps noVary None = Ok (h', out) /\
    (forall l, (l < length h)%nat -> nth_error h' l = nth_error h l) /\
    (forall k, In k (dkeys (ps_items ps)) -> get_param h' (ps_items ps) k = get_param h (ps_items ps) k) /\
    (forall k, non_orbital (ps_num ps) k -> get_param h' (ps_items out) k = get_param h (ps_items ps) k) /\
    ps_num out = ps_num ps /\ ps_letters out = ps_letters ps.
Proof. exact to_synth_frame. Qed.
Print Assumptions C10_to_synth_frame.

(** A planet's converted values are a function of its own values only: two sets
    that agree on one planet (whatever its number, and whatever else they
    contain) give the same values for it. *)
Theorem C10_planet_from_own_elements : forall h1 ps1 h2 ps2 b names b' names' (val1 val2 : nat -> string -> R) n n',
  params_ok h1 ps1 b names -> params_ok h2 ps2 b names -> In (b', names') FIT_BASES ->
  (forall n, (1 <= n <= ps_num ps1)%nat -> holds h1 ps1 names n (val1 n)) ->
  (forall n, (1 <= n <= ps_num ps2)%nat -> holds h2 ps2 names n (val2 n)) ->
  (1 <= n <= ps_num ps1)%nat -> (1 <= n' <= ps_num ps2)%nat ->
  (forall p, In p names -> val1 n p = val2 n' p) ->
  exists h1' c1 out1 h2' c2 out2, convert h1 ps1 b' = Ok (h1', c1, Some out1) /\
    convert h2 ps2 b' = Ok (h2', c2, Some out2) /\
    forall p, In p names' -> value_at h1' out1 (key p n) = value_at h2' out2 (key p n').
Proof. exact convert_own_planet. Qed.
Print Assumptions C10_planet_from_own_elements.

(** the hypotheses hold of a set with an instrument and a trend *)
Example C10_ex :
  let names := ["per"; "tc"; "ecosw"; "esinw"; "k"] in
  params_ok (ex_h names) (ex_ps "per tc ecosw esinw k" names) "per tc ecosw esinw k" names /\
  (forall n, (1 <= n <= 2)%nat -> holds (ex_h names) (ex_ps "per tc ecosw esinw k" names) names n (meaning (ex_E n))) /\
  non_orbital 2 "gamma_j" /\ value_at (ex_h names) (ex_ps "per tc ecosw esinw k" names) "gamma_j" = Some 3%R.
Proof.
  intro names. destruct (ex_ready "per tc ecosw esinw k" names) as (A & _ & _ & D); [cbn; tauto|].
  split; [exact A|]. split; [intros n Hn; now apply D|]. split; [|reflexivity].
  intros n p _ Hp E. symmetry in E. revert E. apply key_not_plain; [now apply pnames_no_digit|reflexivity].
Qed.

(** * C11 *)

(** Full claim: any history of conversions.  True of histories whose targets
    leave the caller's basis name alone (see the next theorem for the others):
    the result is then the same, entry by entry, as on a fresh object. *)
Theorem C11_repeatable_partial : forall h ps b names targets b2 names2 (val : nat -> string -> R),
  params_ok h ps b names -> In (b2, names2) FIT_BASES ->
  (forall n, (1 <= n <= ps_num ps)%nat -> holds h ps names n (val n)) ->
  (forall b', In b' targets -> (exists names', In (b', names') FIT_BASES) /\ (renames_self b' = false \/ b' = b)) ->
  exists h1 ps1 h2 ps2 out2 h3 ps3 out3,
    history h ps targets = Ok (h1, ps1) /\
    convert h ps b2 = Ok (h2, ps2, Some out2) /\ convert h1 ps1 b2 = Ok (h3, ps3, Some out3) /\
    b_name (ps_basis out3) = b_name (ps_basis out2) /\ ps_num out3 = ps_num out2 /\
    ps_letters out3 = ps_letters out2 /\ ps_pp out3 = ps_pp out2 /\
    forall k, get_param h3 (ps_items out3) k = get_param h2 (ps_items out2) k.
Proof. exact convert_after_history. Qed.
Print Assumptions C11_repeatable_partial.

Example C11_repeatable_ex :
  (forall b', In b' ["per tc e w k"; "per tp e w k"; "per tc secosw sesinw logk"; "per tc se w k"; "per tc ecosw esinw k"] ->
    (exists names', In (b', names') FIT_BASES) /\ (renames_self b' = false \/ b' = "per tc ecosw esinw k")) /\
  params_ok (ex_h ["per"; "tc"; "ecosw"; "esinw"; "k"])
            (ex_ps "per tc ecosw esinw k" ["per"; "tc"; "ecosw"; "esinw"; "k"])
            "per tc ecosw esinw k" ["per"; "tc"; "ecosw"; "esinw"; "k"].
Proof.
  split.
  - intros b' Hb'. cbn in Hb'. repeat destruct Hb' as [<-|Hb']; try contradiction;
      (split; [eexists; cbn; tauto|cbn; tauto]).
  - apply ex_ready. cbn; tauto.
Qed.

(** The other five targets: after one conversion the same object can not be
    converted any more, whatever the second target. *)
Theorem C11_repeatable_refuted : forall h ps b names b1 names1 b2 (val : nat -> string -> R),
  params_ok h ps b names -> strict ps names -> In (b1, names1) FIT_BASES -> b1 <> b ->
  renames_self b1 = true -> (1 <= ps_num ps)%nat ->
  (forall n, (1 <= n <= ps_num ps)%nat -> holds h ps names n (val n)) ->
  exists h1 ps1 out1 k, convert h ps b1 = Ok (h1, ps1, Some out1) /\
    convert h1 ps1 b2 = Err (KeyError k).
Proof. exact convert_renamed. Qed.
Print Assumptions C11_repeatable_refuted.

Example C11_repeatable_refuted_ex :
  exists h ps h1 ps1 out1 k, convert h ps "per tc ecosw esinw k" = Ok (h1, ps1, Some out1) /\
    convert h1 ps1 "per tc ecosw esinw k" = Err (KeyError k).
Proof.
  destruct (ex_ready "per tc e w k" ["per"; "tc"; "e"; "w"; "k"]) as (A & B & C & D); [cbn; tauto|].
  destruct (C11_repeatable_refuted _ _ _ _ "per tc ecosw esinw k" ["per"; "tc"; "ecosw"; "esinw"; "k"]
    "per tc ecosw esinw k" (fun n => meaning (ex_E n)) A B) as (h1 & ps1 & out1 & k & E1 & E2);
    [cbn; tauto|discriminate|reflexivity|cbn; lia|intros n Hn; now apply D|].
  repeat eexists; eauto.
Qed.

(** * C12 *)

(** Full claim: all 81 ordered pairs.  True of the 37 pairs of CONVERTIBLE:
    the model built from the converted set has the same elements. *)
Theorem C12_same_elements_partial : forall h ps b names b' names' (E : nat -> elements),
  params_ok h ps b names -> strict ps names -> flags_ok h ps -> In (b', names') FIT_BASES ->
  In (b, b') CONVERTIBLE ->
  (forall n, (1 <= n <= ps_num ps)%nat -> in_domain (E n) /\ holds h ps names n (meaning (E n))) ->
  exists vec w h' ps' out vec' w' E1 E2, vector_init h ps = Ok vec /\
    v_to_synth (ps_basis ps) (v_vector vec) false None = Ok w /\
    convert h ps b' = Ok (h', ps', Some out) /\ vector_init h' out = Ok vec' /\
    v_to_synth (ps_basis out) (v_vector vec') false None = Ok w' /\
    ps_num out = ps_num ps /\ params_ok h' out b' names' /\
    (forall k, In k (dkeys (ps_items out)) -> storable h' (ps_items out) k) /\
    (forall k, non_orbital (ps_num ps) k -> get_param h' (ps_items out) k = get_param h (ps_items ps) k) /\
    forall n, (n < ps_num ps)%nat ->
      five w (5 * n) (el_at (E1 n)) /\ five w' (5 * n) (el_at (E2 n)) /\
      recovered names (E (S n)) (E1 n) /\ recovered names' (E1 n) (E2 n).
Proof. exact convertible_model. Qed.
Print Assumptions C12_same_elements_partial.

(** ... and computes exactly the same velocities (eccentric orbits). *)
Theorem C12_same_velocities_partial : forall h ps b names b' names' (E : nat -> elements) tb use_c fuel t pn,
  params_ok h ps b names -> strict ps names -> flags_ok h ps -> In (b', names') FIT_BASES ->
  In (b, b') CONVERTIBLE ->
  (forall n, (1 <= n <= ps_num ps)%nat -> in_domain (E n) /\ holds h ps names n (meaning (E n))) ->
  (forall n, (1 <= n <= ps_num ps)%nat -> (0 < el_e (E n))%R) ->
  valid_planet (ps_num ps) pn ->
  exists m h' ps' out m', rvmodel_init h ps tb = Ok m /\ convert h ps b' = Ok (h', ps', Some out) /\
    rvmodel_init h' out tb = Ok m' /\ rvmodel_call use_c fuel m' t pn = rvmodel_call use_c fuel m t pn.
Proof. exact converted_velocities. Qed.
Print Assumptions C12_same_velocities_partial.

Example C12_same_ex :
  let names := ["per"; "tc"; "e"; "w"; "k"] in
  params_ok (ex_h names) (ex_ps "per tc e w k" names) "per tc e w k" names /\
  strict (ex_ps "per tc e w k" names) names /\ flags_ok (ex_h names) (ex_ps "per tc e w k" names) /\
  In ("per tc e w k", "per tc secosw sesinw k") CONVERTIBLE /\
  (forall n, (1 <= n <= 2)%nat -> in_domain (ex_E n) /\
     holds (ex_h names) (ex_ps "per tc e w k" names) names n (meaning (ex_E n))) /\
  (forall n, (1 <= n <= 2)%nat -> (0 < el_e (ex_E n))%R).
Proof.
  intro names. destruct (ex_ready "per tc e w k" names) as (A & B & C & D); [cbn; tauto|].
  split; [exact A|]. split; [exact B|]. split; [exact C|]. split; [cbn; tauto|].
  split; [exact D|]. intros; apply ex_domain.
Qed.

(** 42 of the other pairs: no model can be built from the converted set. *)
Theorem C12_no_model_refuted : forall h ps b names b' names' (E : nat -> elements),
  params_ok h ps b names -> strict ps names -> flags_ok h ps -> In (b', names') FIT_BASES ->
  ~ In (b, b') CONVERTIBLE -> ~ In (b, b') WRONG_TP -> (1 <= ps_num ps)%nat ->
  (forall n, (1 <= n <= ps_num ps)%nat -> holds h ps names n (meaning (E n))) ->
  exists h' ps' out, convert h ps b' = Ok (h', ps', Some out) /\ vector_init h' out = Err ValueError.
Proof. exact unusable_model. Qed.
Print Assumptions C12_no_model_refuted.

Example C12_no_model_ex :
  ~ In ("per tc secosw sesinw k", "per tc e w k") CONVERTIBLE /\
  ~ In ("per tc secosw sesinw k", "per tc e w k") WRONG_TP.
Proof. split; cbn; intuition discriminate. Qed.

(** The last 2 pairs: the model uses the transit time as periastron time. *)
Theorem C12_wrong_tp_refuted : forall h ps b names b' names' (E : nat -> elements),
  params_ok h ps b names -> strict ps names -> flags_ok h ps -> In (b', names') FIT_BASES ->
  In (b, b') WRONG_TP ->
  (forall n, (1 <= n <= ps_num ps)%nat -> in_domain (E n) /\ holds h ps names n (meaning (E n))) ->
  exists h' ps' out vec' w', convert h ps b' = Ok (h', ps', Some out) /\ vector_init h' out = Ok vec' /\
    v_to_synth (ps_basis out) (v_vector vec') false None = Ok w' /\
    forall n, (n < ps_num ps)%nat -> rowval w' (1 + 5 * n) = Some (meaning (E (S n)) "tc").
Proof. exact wrong_tp_model. Qed.
Print Assumptions C12_wrong_tp_refuted.

(** a circular orbit with omega = 0: tc is a quarter period after tp *)
Example C12_wrong_tp_ex : meaning (mkEl 4 10 0 0 1) "tc" = 11%R /\ meaning (mkEl 4 10 0 0 1) "tp" = 10%R.
Proof. exact tc_quarter_period. Qed.

(** * C13 *)

(** dict -> vector -> dict leaves every Parameter object as it was. *)
Theorem C13_round_trip : forall num b names h d,
  layout num b names (dkeys d) -> objects_ok h d -> all_storable h d ->
  exists v, dict_to_vector h d (init_index_dict num (dkeys d)) = Ok v /\
            vector_to_dict d (init_index_dict num (dkeys d)) v h = Ok h.
Proof. exact round_trip_dict. Qed.
Print Assumptions C13_round_trip.

(** Each parameter's row holds that parameter; rows without one are zero. *)
Theorem C13_vector_holds_parameters : forall num b names h d,
  layout num b names (dkeys d) -> all_storable h d ->
  exists v, dict_to_vector h d (init_index_dict num (dkeys d)) = Ok v /\
    length v = (length (dkeys d) + n_missing d)%nat /\
    (forall k i, In k (dkeys d) -> dget (init_index_dict num (dkeys d)) k = Some i ->
       nth_error v i = Some (row_at h d k)) /\
    (forall i, (i < length v)%nat ->
       (forall k, In k (dkeys d) -> dget (init_index_dict num (dkeys d)) k <> Some i) ->
       nth_error v i = Some zero_row).
Proof. exact d2v. Qed.
Print Assumptions C13_vector_holds_parameters.

(** Writing back any vector sets exactly the values, and nothing else. *)
Theorem C13_vector_to_dict : forall num b names h d v,
  layout num b names (dkeys d) -> objects_ok h d ->
  (5 * num + 2 + length (filter is_extra (dkeys d)) <= length v)%nat ->
  exists h', vector_to_dict d (init_index_dict num (dkeys d)) v h = Ok h' /\ length h' = length h /\
    (forall k p, get_param h d k = Some p ->
       get_param h' d k = Some (match dget (init_index_dict num (dkeys d)) k with
                                | Some i => mkParam (match nth_error v i with
                                                     | Some r => r_val r | None => p_value p end)
                                                    (p_vary p) (p_scale p) (p_lin p)
                                | None => p end)) /\
    (forall l, (forall k, dget d k <> Some l) -> nth_error h' l = nth_error h l).
Proof. exact vd_main. Qed.
Print Assumptions C13_vector_to_dict.

Theorem C13_slots_distinct : forall num b names (d : dict nat) k k' i,
  layout num b names (dkeys d) -> In k (dkeys d) -> In k' (dkeys d) ->
  dget (init_index_dict num (dkeys d)) k = Some i ->
  dget (init_index_dict num (dkeys d)) k' = Some i -> k = k'.
Proof. exact index_distinct. Qed.
Print Assumptions C13_slots_distinct.

Theorem C13_slots_in_range : forall num b names h d v k i,
  layout num b names (dkeys d) -> dict_to_vector h d (init_index_dict num (dkeys d)) = Ok v ->
  dget (init_index_dict num (dkeys d)) k = Some i -> (i < length v)%nat.
Proof. exact slots_in_range. Qed.
Print Assumptions C13_slots_in_range.

(** Planet n's j-th parameter (basis order) is at row 5(n-1)+j; dvdt and curv
    at 5N and 5N+1; instrument and GP parameters follow in key order. *)
Theorem C13_slot_positions : forall num b names keys,
  layout num b names keys ->
  (forall n j p, (1 <= n <= num)%nat -> nth_error names j = Some p ->
     dget (init_index_dict num keys) (key p n) = Some (5 * (n - 1) + j)%nat) /\
  dget (init_index_dict num keys) "dvdt" = Some (5 * num)%nat /\
  dget (init_index_dict num keys) "curv" = Some (1 + 5 * num)%nat /\
  (forall j k, nth_error (filter is_extra keys) j = Some k ->
     dget (init_index_dict num keys) k = Some (5 * num + 2 + j)%nat).
Proof. exact slot_positions. Qed.
Print Assumptions C13_slot_positions.

Example C13_ex : forall b names, In (b, names) FIT_BASES ->
  layout 2 b names (dkeys (ps_items (ex_ps b names))) /\ objects_ok (ex_h names) (ps_items (ex_ps b names)) /\
  all_storable (ex_h names) (ps_items (ex_ps b names)).
Proof. exact ex_layout. Qed.

(** * C14 *)
Theorem C14_names_match_indices : forall num b names (d : dict nat),
  layout num b names (dkeys d) ->
  exists nm, vector_names d (init_index_dict num (dkeys d)) = Ok nm /\
    length nm = (5 * num + 2 + length (filter is_extra (dkeys d)))%nat /\
    (forall k i, In k (dkeys d) -> dget (init_index_dict num (dkeys d)) k = Some i ->
       nth_error nm i = Some k) /\
    nth_error nm (5 * num) = Some "dvdt" /\ nth_error nm (5 * num + 1) = Some "curv".
Proof. exact names_ok. Qed.
Print Assumptions C14_names_match_indices.

Example C14_ex : layout 2 "per tc e w k" ["per"; "tc"; "e"; "w"; "k"]
    (dkeys (ps_items (ex_ps "per tc e w k" ["per"; "tc"; "e"; "w"; "k"]))) /\
  vector_names (ps_items (ex_ps "per tc e w k" ["per"; "tc"; "e"; "w"; "k"]))
    (init_index_dict 2 (dkeys (ps_items (ex_ps "per tc e w k" ["per"; "tc"; "e"; "w"; "k"])))) =
  Ok ["per1"; "tc1"; "e1"; "w1"; "k1"; "per2"; "tc2"; "e2"; "w2"; "k2"; "dvdt"; "curv"; "gamma_j"; "jit_j"].
Proof. split; [apply ex_layout; cbn; tauto|vm_compute; reflexivity]. Qed.

(** * C15 *)

(** Full claim: also for sets from which a basis parameter was deleted.  What
    holds in general: copy.copy ([deep = false]), copy.deepcopy and pickle
    ([deep = true]) keep every entry, the basis name and the other attributes,
    and the order of the entries that are not defaults; a deep copy has its own
    objects.  The keys are the same when no default key is missing. *)
Theorem C15_copy_partial : forall deep h ps h' out,
  reduce_copy deep h ps = (h', out) -> locs_ok h (ps_items ps) -> NoDup (dkeys (ps_items ps)) ->
  let defaults := default_keys (ps_num ps) (split (b_name (ps_basis ps))) in
  b_name (ps_basis out) = b_name (ps_basis ps) /\ b_num (ps_basis out) = ps_num ps /\
  ps_num out = ps_num ps /\ ps_letters out = ps_letters ps /\ ps_pp out = split (b_name (ps_basis ps)) /\
  (forall l, (l < length h)%nat -> nth_error h' l = nth_error h l) /\
  (forall k, In k (dkeys (ps_items out)) <-> In k (dkeys (ps_items ps)) \/ In k defaults) /\
  (forall k, In k (dkeys (ps_items ps)) -> get_param h' (ps_items out) k = get_param h (ps_items ps) k /\
     if deep then exists l, dget (ps_items out) k = Some l /\ (length h <= l)%nat
     else dget (ps_items out) k = dget (ps_items ps) k) /\
  (forall k, ~ In k (dkeys (ps_items ps)) -> In k defaults ->
     get_param h' (ps_items out) k = Some parameter_default) /\
  (forall f, (forall k, In k defaults -> f k = false) ->
     filter f (dkeys (ps_items out)) = filter f (dkeys (ps_items ps))).
Proof. exact reduce_copy_spec. Qed.
Print Assumptions C15_copy_partial.

Example C15_copy_ex : forall deep (val : nat -> string -> R), exists h' out,
  reduce_copy deep (ex_heap SYNTH val) (ex_ps "per tp e w k" SYNTH) = (h', out) /\
  dkeys (ps_items out) = ["per1"; "tp1"; "e1"; "w1"; "k1"; "per2"; "tp2"; "e2"; "w2"; "k2"; "gamma_j"; "dvdt"; "jit_j"] /\
  value_at h' out "k2" = Some (val 2%nat "k") /\ value_at h' out "gamma_j" = Some 3%R.
Proof. exact copy_example. Qed.

(** A set without "k1" gets it back, with value None. *)
Theorem C15_deleted_key_refuted : forall deep, exists h ps h' out,
  NoDup (dkeys (ps_items ps)) /\ locs_ok h (ps_items ps) /\ reduce_copy deep h ps = (h', out) /\
  ~ In "k1" (dkeys (ps_items ps)) /\ In "k1" (dkeys (ps_items out)) /\ value_at h' out "k1" = None.
Proof. exact deleted_key_returns. Qed.
Print Assumptions C15_deleted_key_refuted.

(** After the set was once converted to "per tc ecosw esinw k" (for a plot,
    say), a copy of it is in that basis and has its parameters without values. *)
Theorem C15_after_conversion_refuted : forall deep, exists h ps h1 ps1 out1 h2 out2,
  params_ok h ps "per tp e w k" SYNTH /\ convert h ps "per tc ecosw esinw k" = Ok (h1, ps1, Some out1) /\
  reduce_copy deep h1 ps1 = (h2, out2) /\ b_name (ps_basis out2) = "per tc ecosw esinw k" /\
  ~ In "ecosw1" (dkeys (ps_items ps)) /\ In "ecosw1" (dkeys (ps_items out2)) /\ value_at h2 out2 "ecosw1" = None.
Proof. exact copy_after_conversion. Qed.
Print Assumptions C15_after_conversion_refuted.

(** * C16 *)
Theorem C16_superposition : forall h ps b names (E : nat -> elements) dvdt curv tb use_c fuel t pn,
  params_ok h ps b names -> strict ps names -> flags_ok h ps ->
  (forall n, (1 <= n <= ps_num ps)%nat -> in_domain (E n) /\ holds h ps names n (meaning (E n))) ->
  trend_value h ps "dvdt" dvdt -> trend_value h ps "curv" curv ->
  exists m E1, rvmodel_init h ps tb = Ok m /\
    (forall n, (1 <= n <= ps_num ps)%nat -> recovered names (E n) (E1 n)) /\
    forall vel, valid_planet (ps_num ps) pn -> rvmodel_call use_c fuel m t pn = Ok vel ->
      exists curves, length curves = length (planets_of ps pn) /\
        (forall j n c, nth_error (planets_of ps pn) j = Some n -> nth_error curves j = Some c ->
           exists x, rv_drive use_c fuel t (orb (E1 (Z.to_nat n))) = Ok x /\ npelems x = c) /\
        length vel = length t /\
        forall i ti, nth_error t i = Some ti ->
          nth_error vel i = Some (sum_samples i curves + dvdt * (ti - tb) + curv * (ti - tb) ^ 2)%R.
Proof. exact set_superposition. Qed.
Print Assumptions C16_superposition.

(** the planets summed: all of them, or just the chosen one *)
Theorem C16_planets_summed : forall ps,
  planets_of ps None = map Z.of_nat (seq 1 (ps_num ps)) /\ forall n, planets_of ps (Some n) = [n].
Proof. exact planets_summed. Qed.
Print Assumptions C16_planets_summed.

Theorem C16_zero_amplitude_contributes_nothing : forall use_c fuel t o x,
  o_k o = 0%R -> rv_drive use_c fuel t o = Ok x -> npelems x = repeat 0%R (length t).
Proof. exact zero_k_curve. Qed.
Print Assumptions C16_zero_amplitude_contributes_nothing.

(** any restriction of the times: evaluating at one of them alone *)
Theorem C16_pointwise : forall use_c fuel m t pn vel i ti,
  rvmodel_call use_c fuel m t pn = Ok vel -> nth_error t i = Some ti ->
  exists v, rvmodel_call use_c fuel m [ti] pn = Ok [v] /\ nth_error vel i = Some v.
Proof. exact call_pointwise. Qed.
Print Assumptions C16_pointwise.

(** the call returns as soon as each planet's velocity does; with
    eccentricities up to 0.3 it always does *)
Theorem C16_call_returns : forall use_c fuel m t pn w dvdt curv,
  v_to_synth (ps_basis (m_params m)) (v_vector (m_vector m)) false None = Ok w ->
  trend_rows m dvdt curv ->
  (forall n, In n (planets_of (m_params m) pn) -> exists o x, orbel_at w n = Ok o /\ rv_drive use_c fuel t o = Ok x) ->
  exists vel, rvmodel_call use_c fuel m t pn = Ok vel.
Proof. exact call_succeeds. Qed.
Print Assumptions C16_call_returns.

Theorem C16_returns_at_moderate_eccentricity : forall h ps b names (E : nat -> elements) dvdt curv tb use_c t pn,
  params_ok h ps b names -> strict ps names -> flags_ok h ps ->
  (forall n, (1 <= n <= ps_num ps)%nat -> in_domain (E n) /\ holds h ps names n (meaning (E n))) ->
  (forall n, (1 <= n <= ps_num ps)%nat -> (el_e (E n) <= 3 / 10)%R) -> t <> [] ->
  trend_value h ps "dvdt" dvdt -> trend_value h ps "curv" curv -> valid_planet (ps_num ps) pn ->
  exists m vel, rvmodel_init h ps tb = Ok m /\ rvmodel_call use_c 29 m t pn = Ok vel.
Proof. exact set_call_returns. Qed.
Print Assumptions C16_returns_at_moderate_eccentricity.

Example C16_ex : exists m vel,
  rvmodel_init (ex_h ["per"; "tc"; "e"; "w"; "k"]) (ex_ps "per tc e w k" ["per"; "tc"; "e"; "w"; "k"]) 2 = Ok m /\
  trend_value (ex_h ["per"; "tc"; "e"; "w"; "k"]) (ex_ps "per tc e w k" ["per"; "tc"; "e"; "w"; "k"]) "dvdt" 5 /\
  trend_value (ex_h ["per"; "tc"; "e"; "w"; "k"]) (ex_ps "per tc e w k" ["per"; "tc"; "e"; "w"; "k"]) "curv" 0 /\
  rvmodel_call true 29 m [1; 5; 80]%R None = Ok vel.
Proof. exact model_example. Qed.
