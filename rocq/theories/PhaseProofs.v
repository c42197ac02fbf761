From Coq Require Import Reals String ZArith Bool Lra Lia List.
From Verif Require Import Py PyFacts PyFloat PyFloatFacts Params ParamsProofs ParamsSpec VectorProofs Kepler Basis BasisNum BasisProofs BasisConv VConv BasisModel BasisThms RVModel RVModelProofs ModelThms BasisExtra Phase.
Import ListNotations.
Open Scope R_scope.
#[local] Arguments key : simpl never.

(** the phase of t with respect to period P and reference time t0 *)
Definition is_phase (P t0 t ph : R) : Prop := 0 <= ph < 1 /\ exists k : Z, t = t0 + P * (IZR k + ph).

Lemma is_phase_unique P t0 t ph ph' : P <> 0 -> is_phase P t0 t ph -> is_phase P t0 t ph' -> ph = ph'.
Proof.
  intros HP [B (k & E)] [B' (k' & E')].
  assert (IZR k + ph = IZR k' + ph') as H.
  { apply (Rmult_eq_reg_l P); auto. lra. }
  assert (IZR (k - k') = ph' - ph) as D by (rewrite minus_IZR; lra).
  assert (k - k' = 0)%Z as Z.
  { assert (-1 < k - k' < 1)%Z; [|lia]. split; apply lt_IZR; rewrite D; lra. }
  rewrite Z in D. lra.
Qed.

Lemma floor_bounds x : IZR (Int_part x) <= x < IZR (Int_part x) + 1.
Proof. pose proof (base_Int_part x). lra. Qed.

Lemma fold_phase_spec P t0 t : P <> 0 -> exists ph, fold_phase P t0 t = Fin ph /\ is_phase P t0 t ph.
Proof.
  intro HP. unfold fold_phase, np_mod. rewrite (proj2 (reqb_false P 0) HP), ext_div_fin by auto.
  exists (((t - t0) - P * np_floor ((t - t0) / P)) / P). split; auto.
  set (x := (t - t0) / P). assert ((t - t0 - P * np_floor x) / P = x - np_floor x) as ->.
  { unfold x. field. auto. }
  unfold np_floor. pose proof (floor_bounds x). split; [lra|]. exists (Int_part x).
  replace (IZR (Int_part x) + (x - IZR (Int_part x))) with x by ring. unfold x. field. auto.
Qed.

Lemma phases_spec P t0 t (cat : bool) : P <> 0 -> exists phs,
  Forall2 (is_phase P t0) t phs /\
  phases P t0 t cat = map Fin (if cat then (phs ++ map (fun x => x + 1) phs)%list else phs).
Proof.
  intro HP. assert (exists phs, Forall2 (is_phase P t0) t phs /\ map (fold_phase P t0) t = map Fin phs) as (phs & F & E).
  { induction t as [|x t IH]; [exists []; split; constructor|]. destruct IH as (phs & F & E).
    destruct (fold_phase_spec P t0 x HP) as (ph & Ex & Hx). exists (ph :: phs). split; [now constructor|]. cbn. now rewrite Ex, E. }
  exists phs. split; auto. unfold phases. rewrite E. destruct cat; auto. rewrite map_app, !map_map. reflexivity.
Qed.

Lemma phases_zero_period t0 t cat : forall x, In x (phases 0 t0 t cat) -> x = NaN.
Proof.
  assert (forall y, fold_phase 0 t0 y = NaN) as H.
  { intro y. unfold fold_phase, np_mod. rewrite (proj2 (reqb_true 0 0) eq_refl). reflexivity. }
  intros x Hx. unfold phases in Hx. destruct cat; [apply in_app_or in Hx; destruct Hx as [Hx|Hx]|]; apply in_map_iff in Hx;
    destruct Hx as (y & <- & Hy); auto. apply in_map_iff in Hy. destruct Hy as (z & <- & _). now rewrite H.
Qed.

(** ** t_to_phase *)
Definition has (h : heap) (d : dict nat) (k : string) (x : R) : Prop := exists q, get_param h d k = Some q /\ p_value q = Some x.
(** the reference time: tc when the set has one, else tp *)
Inductive reference (h : heap) (d : dict nat) (n : nat) (t0 : R) : Prop :=
| ref_tc : has h d (key "tc" n) t0 -> reference h d n t0
| ref_tp : ~ In (key "tc" n) (dkeys d) -> has h d (key "tp" n) t0 -> reference h d n t0.

Lemma has_getpar h d n p x : has h d (key p n) x -> getpar h d n p = Ok x.
Proof. intros (q & H1 & H2). unfold getpar. now rewrite H1, H2. Qed.
Lemma has_dmem h d k x : has h d k x -> dmem d k = true.
Proof. intros (q & H & _). unfold get_param in H. unfold dmem. destruct (dget d k); [reflexivity|discriminate]. Qed.

Lemma t_to_phase_spec h d t n cat P t0 : P <> 0 -> has h d (key "per" n) P -> reference h d n t0 ->
  exists phs, Forall2 (is_phase P t0) t phs /\
    t_to_phase h d t n cat = Ok (map Fin (if cat then (phs ++ map (fun x => x + 1) phs)%list else phs)).
Proof.
  intros HP Hper Hr. destruct (phases_spec P t0 t cat HP) as (phs & F & E). exists phs. split; auto.
  unfold t_to_phase. rewrite (has_getpar _ _ _ _ _ Hper). cbn [bind]. rewrite <- E.
  destruct Hr as [H|N H].
  - rewrite (has_dmem _ _ _ _ H), (has_getpar _ _ _ _ _ H). reflexivity.
  - assert (dmem d (key "tc" n) = false) as ->.
    { destruct (dmem d (key "tc" n)) eqn:Em; auto. apply dmem_in in Em. easy. }
    rewrite (has_dmem _ _ _ _ H), (has_getpar _ _ _ _ _ H). reflexivity.
Qed.

Lemma t_to_phase_errors h d t n cat : 
  (~ In (key "per" n) (dkeys d) -> t_to_phase h d t n cat = Err (KeyError (key "per" n))) /\
  (forall P, has h d (key "per" n) P -> ~ In (key "tc" n) (dkeys d) -> ~ In (key "tp" n) (dkeys d) ->
     t_to_phase h d t n cat = Err UnboundLocalError).
Proof.
  assert (forall k, ~ In k (dkeys d) -> dmem d k = false) as Nm.
  { intros k N. destruct (dmem d k) eqn:Em; auto. apply dmem_in in Em. easy. }
  split.
  - intro N. unfold t_to_phase, getpar, get_param. apply Nm in N. unfold dmem in N. destruct (dget d (key "per" n)); [discriminate|reflexivity].
  - intros P HP N1 N2. unfold t_to_phase. rewrite (has_getpar _ _ _ _ _ HP), (Nm _ N1), (Nm _ N2). reflexivity.
Qed.

(** consequences of the specification *)
Lemma phase_periodic P t0 t ph : is_phase P t0 t ph -> forall m, is_phase P t0 (t + P * IZR m) ph.
Proof. intros [B (k & E)] m. split; auto. exists (k + m)%Z. rewrite plus_IZR, E. ring. Qed.
Lemma phase_reference P t0 : is_phase P t0 t0 0.
Proof. split; [lra|]. exists 0%Z. ring. Qed.

(** ** t_to_phase_vector: the reference time is the time of periastron *)
Lemma t_to_phase_vector_spec h ps b names (E : nat -> elements) t n cat :
  params_ok h ps b names -> strict ps names -> flags_ok h ps -> (1 <= n <= ps_num ps)%nat ->
  (forall n, (1 <= n <= ps_num ps)%nat -> in_domain (E n) /\ holds h ps names n (meaning (E n))) ->
  exists vec el phs, vector_init h ps = Ok vec /\ recovered names (E n) el /\
    Forall2 (is_phase (el_per (E n)) (el_tp el)) t phs /\
    t_to_phase_vector ps (v_vector vec) t (Z.of_nat n) cat = Ok (map Fin (if cat then (phs ++ map (fun x => x + 1) phs)%list else phs)).
Proof.
  intros OK ST FL Hn H. pose proof (po_fit _ _ _ _ OK) as HB.
  destruct (strict_vector h ps b names (fun n => meaning (E n)) OK ST FL) as (vec & V1 & V2).
  { intros k Hk. now apply H. }
  destruct (model_of_set h ps b names E vec OK V1 V2) as (w & W1 & W2).
  destruct n as [|n]; [lia|]. specialize (W2 n ltac:(lia)).
  assert (recovered names (E (S n)) (els b (meaning (E (S n))))) as R by (apply els_meaning; auto; apply H; auto).
  set (el := els b (meaning (E (S n)))) in *.
  assert (el_per el = el_per (E (S n))) as EP by apply (rec_shape _ _ _ R).
  assert (0 < el_per (E (S n))) as PP by (apply (H (S n)); auto).
  destruct (phases_spec (el_per (E (S n))) (el_tp el) t cat) as (phs & F & Ep); [lra|].
  exists vec, el, phs. split; auto. split; auto. split; auto.
  unfold t_to_phase_vector. rewrite W1. cbn [bind].
  replace (-5 + 5 * Z.of_nat (S n))%Z with (Z.of_nat (5 * n)) by lia.
  replace (-4 + 5 * Z.of_nat (S n))%Z with (Z.of_nat (1 + 5 * n)) by lia. rewrite !vgetz_nat.
  destruct (five_vget _ _ _ W2) as (G0 & G1 & _). rewrite G0. cbn [bind]. rewrite G1. cbn [bind].
  change (el_at el 0) with (el_per el). change (el_at el 1) with (el_tp el). rewrite EP, Ep. reflexivity.
Qed.

(** the two functions use different reference times *)
Lemma phase_functions_differ : let names := ["per"; "tc"; "e"; "w"; "k"]%string in
  let E := mkEl 4 10 0 0 1 in exists vec,
  vector_init (ex_heap names (fun _ => meaning E)) (ex_ps "per tc e w k" names) = Ok vec /\
  t_to_phase (ex_heap names (fun _ => meaning E)) (ps_items (ex_ps "per tc e w k" names)) [11] 1 false = Ok [Fin 0] /\
  t_to_phase_vector (ex_ps "per tc e w k" names) (v_vector vec) [11] 1 false = Ok [Fin (1/4)].
Proof.
  intros names E. assert (In ("per tc e w k"%string, names) FIT_BASES) as HF by (cbn; tauto).
  set (h := ex_heap names (fun _ => meaning E)). set (ps := ex_ps "per tc e w k" names).
  pose proof (ex_params_ok "per tc e w k" names (fun _ => meaning E) HF) as OK.
  pose proof (ex_strict "per tc e w k" names HF) as ST. pose proof (ex_flags "per tc e w k" names (fun _ => meaning E) HF) as FL.
  assert (forall n, (1 <= n <= 2)%nat -> holds h ps names n (meaning E)) as HH by (intros n Hn; now apply ex_holds with (val := fun _ => meaning E)).
  assert (in_domain E) as ID by (unfold in_domain; cbn; lra).
  destruct (t_to_phase_vector_spec h ps _ names (fun _ => E) [11] 1 false OK ST FL) as (vec & el & phs & V & R & F & T); [cbn; lia|intros; split; auto|].
  exists vec. split; auto. destruct tc_quarter_period as [TC TP]. fold E in TC, TP.
  assert (el = E) as -> by (apply (rec_w _ _ _ R); cbn; tauto).
  split.
  - destruct (t_to_phase_spec h (ps_items ps) [11] 1 false 4 11) as (phs' & F' & T').
    + lra.
    + specialize (HH 1%nat ltac:(lia) "per"%string ltac:(cbn; tauto)). unfold value_at in HH. unfold has.
      destruct (get_param h (ps_items ps) (key "per" 1)) as [q|]; [|discriminate]. exists q. auto.
    + apply ref_tc. specialize (HH 1%nat ltac:(lia) "tc"%string ltac:(cbn; tauto)). rewrite TC in HH. unfold value_at in HH. unfold has.
      destruct (get_param h (ps_items ps) (key "tc" 1)) as [q|]; [|discriminate]. exists q. auto.
    + rewrite T'. inversion F' as [|? ph ? ? Hp Hn]; subst. inversion Hn; subst.
      assert (ph = 0) as -> by (eapply is_phase_unique; [|exact Hp|apply phase_reference]; lra). reflexivity.
  - change (Z.of_nat 1) with 1%Z in T. rewrite T. inversion F as [|? ph ? ? Hp Hn]; subst. inversion Hn; subst. cbn [el_per el_tp E] in Hp.
    assert (ph = 1/4) as ->; [|reflexivity]. eapply is_phase_unique; [|exact Hp|]; [lra|].
    split; [lra|]. exists 0%Z. lra.
Qed.

(** ** draws from a chain *)
Lemma call_with_items use_c fuel m d t pn : rvmodel_call use_c fuel (with_items m d) t pn = rvmodel_call use_c fuel m t pn.
Proof. reflexivity. Qed.

Lemma draw_step_same use_c fuel c t keys h m out i h' m' out' v :
  rvmodel_call use_c fuel m t None = Ok v -> draw_step use_c fuel c t keys (h, m, out) i = Ok (h', m', out') ->
  rvmodel_call use_c fuel m' t None = Ok v /\ out' = (out ++ [v])%list.
Proof.
  intros Hv. unfold draw_step. destruct (vary_names _ _ _) as [nm|]; cbn [bind]; [|discriminate].
  destruct (chain_loc c i) as [row|]; cbn [bind]; [|discriminate]. destruct (map_res _ nm) as [vals|]; cbn [bind]; [|discriminate].
  unfold array_to_params. destruct (vary_names _ _ _) as [nm2|]; cbn [bind]; [|discriminate].
  destruct (Nat.ltb _ _); [discriminate|]. destruct (assign_params _ _ _) as [h1 d]. cbn [bind]. rewrite call_with_items, Hv.
  cbn [bind]. intro H. inversion H; subst. rewrite call_with_items. auto.
Qed.

Lemma draws_all_same use_c fuel h m order c t draws v out :
  rvmodel_call use_c fuel m t None = Ok v -> draw_models use_c fuel h m order c t draws = Ok out ->
  out = repeat v (length draws) /\ draws <> [].
Proof.
  intros Hv. unfold draw_models. destruct (map_res _ draws) as [rows|] eqn:Er; cbn [bind]; [|discriminate].
  assert (length rows = length draws) as L.
  { revert rows Er. induction draws as [|x d IH]; cbn [map_res]; intros rows Er; [inversion Er; reflexivity|].
    destruct (nth_error c x); cbn [bind] in Er; [|discriminate]. destruct (map_res _ d) as [rs|]; cbn [bind] in Er; [|discriminate].
    inversion Er; subst. cbn. f_equal. now apply IH. }
  set (keys := list_params _ _). clearbody keys.
  assert (forall rows h m o h' m' o', rvmodel_call use_c fuel m t None = Ok v ->
    for_each rows (draw_step use_c fuel c t keys) (h, m, o) = Ok (h', m', o') -> o' = (o ++ repeat v (length rows))%list) as G.
  { clear - v. intro rows. induction rows as [|i rows IH]; intros h m o h' m' o' Hv H; cbn [for_each] in H.
    - inversion H; subst. cbn. now rewrite app_nil_r.
    - destruct (draw_step use_c fuel c t keys (h, m, o) i) as [[[h1 m1] o1]|] eqn:E; cbn [bind] in H; [|discriminate].
      destruct (draw_step_same _ _ _ _ _ _ _ _ _ _ _ _ _ Hv E) as [Hv1 ->]. rewrite (IH _ _ _ _ _ _ Hv1 H), <- app_assoc. reflexivity. }
  destruct (for_each rows _ _) as [[[h' m'] o']|] eqn:Ef; cbn [bind]; [|discriminate].
  specialize (G _ _ _ _ _ _ _ Hv Ef). cbn [app] in G. subst o'. rewrite L.
  destruct draws as [|x d]; cbn [length repeat]; [discriminate|]. intro H. inversion H; subst. split; [reflexivity|discriminate].
Qed.

(** a model with a linear trend and one sample of the trend *)
Definition tr_heap (x : R) : heap := [mkParam (Some x) (VBool true) None false; mkParam (Some 0) (VBool false) None false].
Definition tr_ps : params := mkParams [("dvdt", 0%nat); ("curv", 1%nat)]%string (basis_init "per tp e w k" 0) 0 ["per"; "tp"; "e"; "w"; "k"]%string None.

Lemma draw_ignores_chain : exists m m5,
  rvmodel_init (tr_heap 0) tr_ps 0 = Ok m /\ rvmodel_init (tr_heap 5) tr_ps 0 = Ok m5 /\
  draw_models true 10 (tr_heap 0) m None [(0%nat, [("dvdt"%string, 5)])] [1] [0%nat] = Ok [[0]] /\
  rvmodel_call true 10 m5 [1] None = Ok [5].
Proof.
  destruct (rvmodel_init (tr_heap 0) tr_ps 0) as [m|] eqn:E; [|discriminate E].
  destruct (rvmodel_init (tr_heap 5) tr_ps 0) as [m5|] eqn:E5; [|discriminate E5].
  exists m, m5. split; auto. split; auto. cbv in E, E5. inversion E; inversion E5; subst. split.
  - cbv -[Rplus Rmult Rminus pow IZR]. do 3 f_equal. ring.
  - cbv -[Rplus Rmult Rminus pow IZR]. do 2 f_equal. ring.
Qed.
