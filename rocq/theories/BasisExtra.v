(** Small lemmas and examples for C12-C16. *)
From Coq Require Import Reals String Ascii Arith ZArith Bool Lia Lra List.
From Verif Require Import Py PyFacts Params ParamsProofs ParamsSpec VectorProofs Kepler KeplerSpec DanbyProofs RvTerm Basis BasisNum
  BasisProofs BasisConv VConv BasisModel BasisThms RVModel RVModelProofs ModelThms PickleProofs.
Import ListNotations.
Open Scope string_scope.

Lemma tc_quarter_period : meaning (mkEl 4 10 0 0 1) "tc" = 11%R /\ meaning (mkEl 4 10 0 0 1) "tp" = 10%R.
Proof.
  split; [|reflexivity]. cbn -[timeperi_to_timetrans]. unfold timeperi_to_timetrans.
  rewrite (proj2 (rleb_false 1 0)) by lra. cbv zeta.
  assert (ee_of_f 0 (PI / 2 - 0) = PI / 2)%R as ->.
  { unfold ee_of_f. replace ((PI / 2 - 0) / 2)%R with (PI / 4)%R by field.
    unfold np_tan. destruct (Req_EM_T (cos (PI / 4)) 0) as [Z|_].
    - exfalso. rewrite cos_PI4 in Z. apply (Rlt_irrefl 0). rewrite <- Z at 2.
      apply Rdiv_lt_0_compat; [lra|]. apply sqrt_lt_R0; lra.
    - rewrite tan_PI4. replace ((1 - 0) / (1 + 0))%R with 1%R by field. rewrite sqrt_1, Rmult_1_r, atan_1. field. }
  field. apply PI_neq0.
Qed.

Lemma slots_in_range num b names h d v k i :
  layout num b names (dkeys d) -> dict_to_vector h d (init_index_dict num (dkeys d)) = Ok v ->
  dget (init_index_dict num (dkeys d)) k = Some i -> (i < length v)%nat.
Proof.
  intros L HV HI. pose proof (index_range _ _ _ _ _ _ L HI) as A. pose proof (rows_enough _ _ _ _ L) as B.
  assert (forall ks v0 v1, for_each ks (dv_step h d (init_index_dict num (dkeys d))) v0 = Ok v1 -> length v1 = length v0) as Q.
  { induction ks as [|k0 ks IH]; cbn [for_each]; intros v0 v1 H; [now inversion H|].
    destruct (dv_step h d (init_index_dict num (dkeys d)) v0 k0) as [v2|] eqn:E; [|discriminate]. cbn [bind] in H. apply IH in H. rewrite H.
    unfold dv_step in E. destruct (dget _ k0); [|now inversion E]. destruct (get_param h d k0); [|discriminate].
    destruct (Nat.ltb n (length v0)); [|discriminate]. destruct (p_vary p); [|discriminate].
    inversion E. apply length_list_upd. }
  apply Q in HV. rewrite HV, repeat_length. lia.
Qed.

Lemma nth_rank (l : list string) j k : NoDup l -> nth_error l j = Some k -> rank k l = j.
Proof.
  intros ND H. assert (In k l) as Hin by (eapply nth_error_In; eauto).
  pose proof (rank_nth k l Hin) as R. pose proof (rank_lt k l Hin).
  apply (NoDup_nth_error l); auto. congruence.
Qed.

Lemma slot_positions num b names keys :
  layout num b names keys ->
  (forall n j p, (1 <= n <= num)%nat -> nth_error names j = Some p ->
     dget (init_index_dict num keys) (key p n) = Some (5 * (n - 1) + j)%nat) /\
  dget (init_index_dict num keys) "dvdt" = Some (5 * num)%nat /\
  dget (init_index_dict num keys) "curv" = Some (1 + 5 * num)%nat /\
  (forall j k, nth_error (filter is_extra keys) j = Some k ->
     dget (init_index_dict num keys) k = Some (5 * num + 2 + j)%nat).
Proof.
  intros [HF ND HH HO]. split; [|split; [apply index_dvdt|split; [apply index_curv|]]].
  - intros n j p Hn Hj. assert (In p names) as Hp by (eapply nth_error_In; eauto).
    rewrite index_planet; auto; [|exact (fit_pnames _ _ _ HF Hp)]. now rewrite (fit_column _ _ _ _ HF Hj).
  - intros j k Hj. assert (In k (filter is_extra keys)) as Hin by (eapply nth_error_In; eauto).
    apply filter_In in Hin. destruct Hin as [Hin He].
    rewrite index_extra by auto. do 2 f_equal. apply nth_rank; auto. now apply NoDup_filter.
Qed.

Lemma ex_locs b names : In (b, names) FIT_BASES -> NoDup (map snd (ps_items (ex_ps b names))).
Proof.
  intro HF. replace (map snd (ps_items (ex_ps b names))) with (seq 0 13); [apply seq_NoDup|].
  fit_cases HF; reflexivity.
Qed.

Lemma nodup_snd (d : dict nat) k k' l : NoDup (map snd d) -> In (k, l) d -> In (k', l) d -> k = k'.
Proof.
  induction d as [|[a x] r IH]; [contradiction|]. cbn [map snd]. intro ND. inversion ND as [|? ? N1 N2]; subst.
  intros [H|H] [H'|H'].
  - congruence.
  - inversion H; subst. exfalso. apply N1. apply in_map_iff. exists (k', l). auto.
  - inversion H'; subst. exfalso. apply N1. apply in_map_iff. exists (k, l). auto.
  - auto.
Qed.

Lemma ex_layout b names : In (b, names) FIT_BASES ->
  layout 2 b names (dkeys (ps_items (ex_ps b names))) /\ objects_ok (ex_h names) (ps_items (ex_ps b names)) /\
  all_storable (ex_h names) (ps_items (ex_ps b names)).
Proof.
  intro HF. destruct (ex_ready b names HF) as (OK & ST & FL & _).
  split; [|split].
  - split; [exact HF|exact (po_wf _ _ _ _ OK)|exact (po_has _ _ _ _ OK)|exact ST].
  - split; [exact (po_wf _ _ _ _ OK)| |].
    + intros k l H. apply dget_in in H. eapply (po_locs _ _ _ _ OK); eauto.
    + intros k k' l H H'. apply dget_in in H. apply dget_in in H'.
      exact (nodup_snd _ _ _ _ (ex_locs b names HF) H H').
  - exact FL.
Qed.

Lemma copy_example : forall deep (val : nat -> string -> R), exists h' out,
  reduce_copy deep (ex_heap SYNTH val) (ex_ps "per tp e w k" SYNTH) = (h', out) /\
  dkeys (ps_items out) = ["per1"; "tp1"; "e1"; "w1"; "k1"; "per2"; "tp2"; "e2"; "w2"; "k2"; "gamma_j"; "dvdt"; "jit_j"] /\
  value_at h' out "k2" = Some (val 2%nat "k") /\ value_at h' out "gamma_j" = Some 3%R.
Proof.
  intros deep val. destruct (reduce_copy deep (ex_heap SYNTH val) (ex_ps "per tp e w k" SYNTH)) as [h' out] eqn:E.
  exists h', out. split; [reflexivity|]. destruct deep; vm_compute in E; inversion E; subst; split; try split; vm_compute; reflexivity.
Qed.

Definition no_k1 : params :=
  let ps := ex_ps "per tp e w k" SYNTH in
  mkParams (dremove (ps_items ps) "k1") (ps_basis ps) (ps_num ps) (ps_pp ps) (ps_letters ps).

Lemma deleted_key_returns : forall deep, exists h ps h' out,
  NoDup (dkeys (ps_items ps)) /\ locs_ok h (ps_items ps) /\ reduce_copy deep h ps = (h', out) /\
  ~ In "k1" (dkeys (ps_items ps)) /\ In "k1" (dkeys (ps_items out)) /\ value_at h' out "k1" = None.
Proof.
  intro deep. exists (ex_h SYNTH), no_k1.
  assert (NoDup (dkeys (ps_items no_k1))) as ND by (apply nodup_strings; vm_compute; reflexivity).
  assert (locs_ok (ex_h SYNTH) (ps_items no_k1)) as HL.
  { intros k l H. apply in_dremove in H. eapply (po_locs _ _ _ _ (proj1 (ex_ready _ _ synth_fit))); eauto. }
  destruct (reduce_copy deep (ex_h SYNTH) no_k1) as [h' out] eqn:E. exists h', out.
  split; auto. split; auto. split; auto.
  destruct (reduce_copy_spec deep _ _ _ _ E HL ND) as (_ & _ & _ & _ & _ & _ & K & _ & D & _).
  assert (~ In "k1" (dkeys (ps_items no_k1))) as N by (vm_compute; intuition discriminate).
  assert (In "k1" (default_keys (ps_num no_k1) (split (b_name (ps_basis no_k1))))) as I by (vm_compute; tauto).
  split; auto. split; [apply K; auto|]. unfold value_at. rewrite D by auto. reflexivity.
Qed.

Lemma copy_after_conversion : forall deep, exists h ps h1 ps1 out1 h2 out2,
  params_ok h ps "per tp e w k" SYNTH /\ convert h ps "per tc ecosw esinw k" = Ok (h1, ps1, Some out1) /\
  reduce_copy deep h1 ps1 = (h2, out2) /\ b_name (ps_basis out2) = "per tc ecosw esinw k" /\
  ~ In "ecosw1" (dkeys (ps_items ps)) /\ In "ecosw1" (dkeys (ps_items out2)) /\ value_at h2 out2 "ecosw1" = None.
Proof.
  intro deep. destruct (ex_ready _ _ synth_fit) as (OK & _ & _ & H).
  set (ps := ex_ps "per tp e w k" SYNTH) in *. set (h := ex_h SYNTH) in *.
  destruct (convert_main h ps _ _ "per tc ecosw esinw k" ["per"; "tc"; "ecosw"; "esinw"; "k"]
     (fun n => meaning (ex_E n)) (fun n => els "per tp e w k" (meaning (ex_E n))) OK)
    as (h1 & out1 & A1 & A2 & [t A3] & _).
  { cbn; tauto. } { intros n Hn. exact (proj2 (H n Hn)). } { intros n Hn. exact (els_ok _ _ _ synth_fit). }
  set (ps1 := caller_after ps "per tc ecosw esinw k") in *.
  destruct (reduce_copy deep h1 ps1) as [h2 out2] eqn:E.
  destruct (reduce_copy_spec deep h1 ps1 h2 out2 E) as (B1 & _ & _ & _ & _ & _ & K & _ & D & _).
  { intros k l Hin. rewrite A3, app_length. apply (po_locs _ _ _ _ OK) in Hin. lia. }
  { exact (po_wf _ _ _ _ OK). }
  exists h, ps, h1, ps1, out1, h2, out2. split; [exact OK|]. split; [exact A1|]. split; [exact E|]. split; [rewrite B1; reflexivity|].
  assert (~ In "ecosw1" (dkeys (ps_items ps))) as N by (vm_compute; intuition discriminate).
  assert (In "ecosw1" (default_keys (ps_num ps1) (split (b_name (ps_basis ps1))))) as I by (vm_compute; tauto).
  split; [exact N|]. split; [apply K; right; exact I|]. unfold value_at. rewrite D; [reflexivity|exact N|exact I].
Qed.

Lemma planets_summed ps :
  planets_of ps None = map Z.of_nat (seq 1 (ps_num ps)) /\ forall n, planets_of ps (Some n) = [n].
Proof. split; reflexivity. Qed.

Lemma model_example : exists m vel,
  rvmodel_init (ex_h ["per"; "tc"; "e"; "w"; "k"]) (ex_ps "per tc e w k" ["per"; "tc"; "e"; "w"; "k"]) 2 = Ok m /\
  trend_value (ex_h ["per"; "tc"; "e"; "w"; "k"]) (ex_ps "per tc e w k" ["per"; "tc"; "e"; "w"; "k"]) "dvdt" 5 /\
  trend_value (ex_h ["per"; "tc"; "e"; "w"; "k"]) (ex_ps "per tc e w k" ["per"; "tc"; "e"; "w"; "k"]) "curv" 0 /\
  rvmodel_call true 29 m [1; 5; 80]%R None = Ok vel.
Proof.
  assert (In ("per tc e w k", ["per"; "tc"; "e"; "w"; "k"]) FIT_BASES) as HF by (cbn; tauto).
  destruct (ex_ready _ _ HF) as (OK & ST & FL & H).
  set (ps := ex_ps _ _) in *. set (h := ex_h _) in *.
  assert (trend_value h ps "dvdt" 5) as TD by reflexivity.
  assert (trend_value h ps "curv" 0) as TC by reflexivity.
  destruct (set_call_returns h ps _ _ ex_E 5 0 2 true [1; 5; 80]%R None OK ST FL H) as (m & vel & A & B); auto.
  - intros n _. unfold ex_E. destruct (Nat.eqb n 1); cbn; lra.
  - discriminate.
  - exact I.
  - exists m, vel. auto.
Qed.
