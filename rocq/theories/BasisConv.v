(** C08, C10: what the dictionary conversions compute. *)
From Coq Require Import Reals String Ascii Arith Bool Lia List.
From Verif Require Import Py PyFacts Params ParamsProofs ParamsSpec VectorProofs Kepler Basis BasisNum BasisProofs.
Import ListNotations.
Open Scope string_scope.
#[local] Arguments unkey : simpl never.
#[local] Arguments key : simpl never.

Definition el_tuple (el : elements) := (el_per el, el_tp el, el_e el, el_w el, el_k el).
Definition SYNTH := ["per"; "tp"; "e"; "w"; "k"].

Lemma dget_dset {V} (d : dict V) k v k' : dget (dset d k v) k' = if String.eqb k' k then Some v else dget d k'.
Proof.
  destruct (String.eqb_spec k' k) as [->|H]; [apply dget_dset_same|now apply dget_dset_other].
Qed.

Lemma synth_of_names b names g g' : In (b, names) FIT_BASES -> (forall p, In p names -> g p = g' p) ->
  synth_of b g = synth_of b g'.
Proof.
  intros HF H. fit_cases HF; unfold synth_of;
    repeat match goal with |- context [String.eqb ?a ?b] =>
      let r := eval vm_compute in (String.eqb a b) in change (String.eqb a b) with r end; cbv iota;
    rewrite !H by (cbn; tauto); reflexivity.
Qed.

Lemma from_synth_of_names b g g' (HB : forall p, In p SYNTH -> g p = g' p) :
  from_synth_of b true g = from_synth_of b true g'.
Proof.
  unfold from_synth_of, tp_source.
  rewrite !(HB "per"), !(HB "tp"), !(HB "e"), !(HB "w"), !(HB "k") by (cbn; tauto). reflexivity.
Qed.

Lemma dget_set1 noVary src d pv p :
  dget (set1_to noVary src d pv) p =
  if String.eqb p (fst pv) then
    Some (match dget src (fst pv) with
          | Some q => mkParam (Some (snd pv)) (p_vary q) (p_scale q) false
          | None => mkParam (Some (snd pv)) (if noVary then VEmpty else VBool true) None false end)
  else dget d p.
Proof. unfold set1_to. apply dget_dset. Qed.

Lemma pval_set1 noVary src d pv p :
  option_map p_value (dget (set1_to noVary src d pv) p) =
  if String.eqb p (fst pv) then Some (Some (snd pv)) else option_map p_value (dget d p).
Proof.
  rewrite dget_set1. destruct (String.eqb p (fst pv)); auto. destruct (dget src (fst pv)); reflexivity.
Qed.

(** values after to_synth *)
Lemma to_synth1_value noVary names src el p : In p SYNTH ->
  option_map p_value (dget (to_synth1 noVary names src (el_tuple el)) p) = Some (Some (meaning el p)).
Proof.
  intro Hp. unfold to_synth1. cbn [sets_of el_tuple fold_left]. rewrite !pval_set1. cbn [fst snd].
  destruct el. cbn in Hp. intuition (subst p; reflexivity).
Qed.

Lemma get1_value n src p v : option_map p_value (dget src p) = Some (Some v) -> get1 n src p = Ok v.
Proof. unfold get1. destruct (dget src p) as [q|]; cbn; [|discriminate]. intro H. inversion H as [H1]. now rewrite H1. Qed.

(** what from_synth does, from elements *)
Definition conv_sd (b' : string) (el : elements) : list (string * R) * list string :=
  match from_synth_of b' true (fun p => Ok (meaning el p)) with Ok x => x | Err _ => ([], []) end.

Lemma conv_sd_ok b' el : from_synth_of b' true (fun p => Ok (meaning el p)) = Ok (conv_sd b' el).
Proof.
  unfold conv_sd, from_synth_of, tp_source. cbn [bind].
  repeat match goal with |- context [if ?c then _ else _] => destruct c end; reflexivity.
Qed.

Ltac eval_strings :=
  repeat match goal with
  | |- context [String.eqb ?a ?b] =>
      let r := eval vm_compute in (String.eqb a b) in
      match r with true => idtac | false => idtac end;
      change (String.eqb a b) with r
  end; cbv iota.

Lemma conv_sd_shape b' names' el : In (b', names') FIT_BASES ->
  (forall pv, In pv (fst (conv_sd b' el)) -> In (fst pv) PNAMES /\ snd pv = meaning el (fst pv)) /\
  NoDup (snd (conv_sd b' el)) /\
  (forall p, In p (snd (conv_sd b' el)) -> In p SYNTH /\ ~ In p names').
Proof.
  intro HF. destruct el as [per tp e w k].
  fit_cases HF; unfold conv_sd, from_synth_of, tp_source; eval_strings; cbn [bind fst snd app];
  (split; [|split]);
  try (intros pv H; cbn [In] in H; repeat (destruct H as [H|H]; [subst pv; split; [cbn; tauto|reflexivity]|]); easy);
  try (repeat constructor; cbn; intuition discriminate);
  try (intros p H; cbn [In] in H; repeat (destruct H as [H|H]; [subst p; split; [cbn; tauto|cbn; intuition discriminate]|]); easy).
Qed.

Lemma conv_sd_covers b' names' el p : In (b', names') FIT_BASES -> In p names' ->
  In p (map fst (fst (conv_sd b' el))) \/ In p SYNTH.
Proof.
  intros HF. fit_cases HF; unfold conv_sd, from_synth_of, tp_source; eval_strings; cbn [bind fst snd app map];
    intro H; cbn [In] in H; repeat (destruct H as [H|H]; [subst p; cbn; tauto|]); easy.
Qed.

Lemma dget_dremoves {V} dels (d : dict V) p : ~ In p dels ->
  dget (fold_left (fun x p => dremove x p) dels d) p = dget d p.
Proof.
  revert d. induction dels as [|a r IH]; auto. intros d H. cbn [fold_left]. cbn in H.
  rewrite IH by tauto. apply dget_dremove_other. intuition.
Qed.

Lemma dget_dupdate_some {V} (d d2 : dict V) p : NoDup (dkeys d2) -> In p (dkeys d2) ->
  dget (dupdate d d2) p = dget d2 p.
Proof.
  intros ND H. destruct (dget_some_key d2 p H) as [v E]. rewrite E. now apply dget_dupdate_in.
Qed.

Lemma from_synth1_value b' names' el src p : In (b', names') FIT_BASES -> In p names' ->
  NoDup (dkeys src) -> (forall q, In q SYNTH -> option_map p_value (dget src q) = Some (Some (meaning el q))) ->
  option_map p_value (dget (from_synth1 false SYNTH src (conv_sd b' el)) p) = Some (Some (meaning el p)).
Proof.
  intros HF Hp ND HS. destruct (conv_sd_shape b' names' el HF) as (A & B & C).
  unfold from_synth1. cbn [fst snd]. rewrite dget_dremoves by (intro H; apply C in H; tauto).
  assert (forall s d, (forall pv, In pv s -> snd pv = meaning el (fst pv)) ->
     (In p (map fst s) \/ option_map p_value (dget d p) = Some (Some (meaning el p))) ->
     option_map p_value (dget (fold_left (set1_from src) s d) p) = Some (Some (meaning el p))) as Q.
  { clear. induction s as [|pv r IH]; intros d H Hs; cbn [fold_left].
    - destruct Hs as [[]|]; auto.
    - apply IH; [intros; apply H; now right|]. unfold set1_from. rewrite pval_set1.
      destruct (String.eqb_spec p (fst pv)) as [->|].
      + right. rewrite (H pv) by now left. reflexivity.
      + destruct Hs as [[Hs|Hs]|Hs]; auto. congruence. }
  apply Q; [intros; now apply A|].
  destruct (conv_sd_covers b' names' el p HF Hp) as [|Hs]; auto. right.
  rewrite dget_dupdate_some; auto.
  specialize (HS p Hs). destruct (dget src p) eqn:E; [|discriminate]. eapply dget_key; eauto.
Qed.

Lemma projv_nodup h n d : NoDup (dkeys d) -> NoDup (dkeys (projv h n d)).
Proof.
  unfold dkeys. induction d as [|[k l] r IH]; cbn [projv flat_map map fst]; intro H; [constructor|].
  inversion H; subst. unfold planet_entry at 1. cbn [fst snd].
  destruct (unkey n k) as [p|] eqn:E; [|now apply IH].
  destruct (nth_error h l); [|now apply IH]. cbn [app map fst]. constructor; [|now apply IH].
  intro Hin. apply in_map_iff in Hin. destruct Hin as ([p' q'] & Ep & Hin). cbn in Ep. subst p'.
  apply in_flat_map in Hin. destruct Hin as ([k' l'] & Hk' & Hin). unfold planet_entry in Hin. cbn [fst snd] in Hin.
  destruct (unkey n k') as [p'|] eqn:E'; [|easy]. destruct (nth_error h l'); [|easy].
  destruct Hin as [Hin|[]]. inversion Hin; subst p'. apply unkey_some in E, E'.
  destruct E as [-> _], E' as [-> _]. apply H2. apply in_map_iff. now exists (key p n, l').
Qed.

Lemma non_orbital_unkey num k : non_orbital num k -> forall n, (1 <= n <= num)%nat -> unkey n k = None.
Proof. intros H n Hn. apply unkey_none. intros p Hp. now apply H. Qed.

Lemma non_orbital_default num names k : (forall p, In p names -> In p PNAMES) -> non_orbital num k ->
  ~ In k (default_keys num names).
Proof.
  intros HP H Hin. unfold default_keys in Hin. apply in_flat_map in Hin. destruct Hin as (n & Hn & Hin).
  apply in_map_iff in Hin. destruct Hin as (p & <- & Hp). apply in_seq in Hn. apply (H n p); auto. lia.
Qed.

Lemma holds_proj h ps names n val p : locs_ok h (ps_items ps) -> In p PNAMES -> In p names ->
  holds h ps names n val -> option_map p_value (dget (projv h n (ps_items ps)) p) = Some (Some (val p)).
Proof.
  intros HL HP Hin H. rewrite projv_get by auto. specialize (H p Hin). unfold value_at in H.
  destruct (get_param h (ps_items ps) (key p n)); [|discriminate]. cbn. now rewrite H.
Qed.

Lemma proj_value h ps n p v : locs_ok h (ps_items ps) -> In p PNAMES ->
  option_map p_value (dget (projv h n (ps_items ps)) p) = Some (Some v) ->
  value_at h ps (key p n) = Some v.
Proof.
  intros HL HP H. rewrite projv_get in H by auto. unfold value_at.
  destruct (get_param h (ps_items ps) (key p n)); [|discriminate]. cbn in H. congruence.
Qed.

Lemma value_key h ps k v : value_at h ps k = Some v -> In k (dkeys (ps_items ps)).
Proof.
  unfold value_at, get_param. destruct (dget (ps_items ps) k) eqn:E; [|discriminate].
  intros _. eapply dget_key; eauto.
Qed.

Lemma synth_pnames p : In p SYNTH -> In p PNAMES.
Proof. cbn. intuition (subst; tauto). Qed.

Lemma synth_fit : In ("per tp e w k", SYNTH) FIT_BASES.
Proof. now left. Qed.

(** ** to_synth *)
Lemma to_synth_main h ps b names noVary (val : nat -> string -> R) E :
  params_ok h ps b names ->
  (forall n, (1 <= n <= ps_num ps)%nat -> holds h ps names n (val n)) ->
  (forall n, (1 <= n <= ps_num ps)%nat -> synth_of b (fun p => Ok (val n p)) = Ok (el_tuple (E n))) ->
  exists h' out, to_synth h (ps_basis ps) ps noVary None = Ok (h', out) /\
    params_ok h' out "per tp e w k" SYNTH /\ (exists t, h' = (h ++ t)%list) /\
    ps_num out = ps_num ps /\ ps_letters out = ps_letters ps /\ ps_pp out = SYNTH /\
    b_num (ps_basis out) = ps_num ps /\
    (forall n, (1 <= n <= ps_num ps)%nat -> holds h' out SYNTH n (meaning (E n))) /\
    (forall k, non_orbital (ps_num ps) k -> dget (ps_items out) k = dget (ps_items ps) k) /\
    (forall n, (1 <= n <= ps_num ps)%nat ->
       projv h' n (ps_items out) = to_synth1 noVary names (projv h n (ps_items ps)) (el_tuple (E n))).
Proof.
  intros OK HV HS. destruct OK as [HF HN Hnum HL ND HH].
  assert (split (b_name (ps_basis ps)) = names) as Hsplit by (rewrite HN; eapply fit_names; eauto).
  assert (forall p, In p names -> In p PNAMES) as HP by (intros; eapply fit_pnames; eauto).
  assert (NoDup names) as NN by (eapply fit_nodup; eauto).
  destruct (to_synth_spec h (ps_basis ps) ps noVary None (fun n => el_tuple (E n)) HL ND)
    as (h' & out & R1 & R2 & R3 & R4 & R5 & R6 & R7 & R8 & R9 & R10).
  - intros n Hn. rewrite Hnum in Hn. rewrite <- (HS n Hn), HN.
    apply synth_of_names with (names := names); auto.
    intros p Hp. apply get1_value. apply holds_proj with (names := names); auto.
  - rewrite Hsplit in R9, R10. rewrite Hnum in R9, R10.
    assert (forall n, (1 <= n <= ps_num ps)%nat ->
       projv h' n (ps_items out) = to_synth1 noVary names (projv h n (ps_items ps)) (el_tuple (E n))) as HPJ
      by (intros n Hn; apply R10; auto; lia).
    assert (forall n, (1 <= n <= ps_num ps)%nat -> holds h' out SYNTH n (meaning (E n))) as HOLD.
    { intros n Hn p Hp. apply proj_value; auto; [now apply synth_pnames|].
      rewrite HPJ by auto. now apply to_synth1_value. }
    exists h', out. split; auto. split; [constructor; auto|].
    + apply synth_fit.
    + now rewrite R7.
    + rewrite R7. cbn. congruence.
    + intros n p Hn Hp. rewrite R5 in Hn. eapply value_key. apply HOLD; auto.
    + split; auto. split; auto. split; auto. split; auto. split; [rewrite R7; cbn; auto|]. split; auto. split; auto.
      intros k Hk. destruct (R9 k (non_orbital_unkey _ _ Hk)) as [A B].
      destruct (in_dec string_dec k (dkeys (ps_items ps))) as [Hi|Hi]; auto.
      rewrite B; auto; [|now apply non_orbital_default]. symmetry. now apply dget_none.
Qed.

(** ** from_synth *)
Lemma from_synth_main h self ps b' names' E :
  params_ok h ps "per tp e w k" SYNTH -> ps_pp ps = SYNTH -> b_num self = ps_num ps ->
  In (b', names') FIT_BASES ->
  (forall n, (1 <= n <= ps_num ps)%nat -> holds h ps SYNTH n (meaning (E n))) ->
  exists h' out, from_synth h self ps b' false = Ok (h', self_after self b', Some out) /\
    params_ok h' out b' names' /\ (exists t, h' = (h ++ t)%list) /\
    ps_num out = ps_num ps /\ ps_letters out = ps_letters ps /\ ps_pp out = names' /\
    (forall n, (1 <= n <= ps_num ps)%nat -> holds h' out names' n (meaning (E n))) /\
    (forall k, non_orbital (ps_num ps) k -> dget (ps_items out) k = dget (ps_items ps) k) /\
    (forall n, (1 <= n <= ps_num ps)%nat ->
       projv h' n (ps_items out) = from_synth1 false SYNTH (projv h n (ps_items ps)) (conv_sd b' (E n))).
Proof.
  intros OK Hpp Hself HF HV. destruct OK as [_ HN Hnum HL ND HH].
  assert (split (b_name (ps_basis ps)) = SYNTH) as Hsplit by (rewrite HN; reflexivity).
  assert (NoDup SYNTH) as NN by (apply (fit_nodup _ _ synth_fit)).
  destruct (from_synth_spec h self ps b' false (fun n => conv_sd b' (E n)) HL ND)
    as (h' & out & R1 & R2 & R3 & R4 & R5 & R6 & R7 & R8 & R9 & R10).
  - fit_cases HF; reflexivity.
  - now rewrite Hsplit.
  - rewrite Hsplit. apply synth_pnames.
  - lia.
  - intros n Hn. rewrite Hself in Hn. destruct (conv_sd_shape b' names' (E n) HF) as (A & B & C).
    split; [|split; [|split; [|split]]]; auto.
    + rewrite Hpp. change (str_in "tp" SYNTH) with true. rewrite <- conv_sd_ok.
      apply from_synth_of_names. intros p Hp. apply get1_value.
      apply holds_proj with (names := SYNTH); auto using synth_pnames.
    + intros; now apply A.
    + intros p Hp. apply C in Hp. rewrite Hsplit. tauto.
    + intros p Hp. apply C in Hp. apply synth_pnames. tauto.
  - rewrite Hsplit in R9, R10. rewrite Hself in R9, R10.
    assert (forall n, (1 <= n <= ps_num ps)%nat -> holds h' out names' n (meaning (E n))) as HOLD.
    { intros n Hn p Hp. apply proj_value; auto; [eapply fit_pnames; eauto|].
      rewrite R10 by auto. apply from_synth1_value with (names' := names'); auto.
      - now apply projv_nodup.
      - intros q Hq. apply holds_proj with (names := SYNTH); auto using synth_pnames. }
    exists h', out. split; auto. split; [constructor; auto|].
    + now rewrite R7.
    + rewrite R7. cbn. congruence.
    + intros n p Hn Hp. rewrite R5 in Hn. eapply value_key. apply HOLD; auto.
    + split; auto. split; auto. split; auto. split; [rewrite R8; eapply fit_names; eauto|]. split; auto. split; auto.
      intros k Hk. destruct (R9 k (non_orbital_unkey _ _ Hk)) as [A B].
      destruct (in_dec string_dec k (dkeys (ps_items ps))) as [Hi|Hi]; auto.
      rewrite B; auto; [|apply non_orbital_default; auto using synth_pnames]. symmetry. now apply dget_none.
Qed.

(** ** params.basis.to_any_basis(params, b') *)
Definition caller_after (ps : params) (b' : string) : params :=
  mkParams (ps_items ps) (self_after (ps_basis ps) b') (ps_num ps) (ps_pp ps) (ps_letters ps).

Lemma convert_main h ps b names b' names' (val : nat -> string -> R) E :
  params_ok h ps b names -> In (b', names') FIT_BASES ->
  (forall n, (1 <= n <= ps_num ps)%nat -> holds h ps names n (val n)) ->
  (forall n, (1 <= n <= ps_num ps)%nat -> synth_of b (fun p => Ok (val n p)) = Ok (el_tuple (E n))) ->
  exists h' out, convert h ps b' = Ok (h', caller_after ps b', Some out) /\
    params_ok h' out b' names' /\ (exists t, h' = (h ++ t)%list) /\
    ps_num out = ps_num ps /\ ps_letters out = ps_letters ps /\ ps_pp out = names' /\
    (forall n, (1 <= n <= ps_num ps)%nat -> holds h' out names' n (meaning (E n))) /\
    (forall k, non_orbital (ps_num ps) k -> dget (ps_items out) k = dget (ps_items ps) k) /\
    (forall n, (1 <= n <= ps_num ps)%nat ->
       projv h' n (ps_items out) =
       from_synth1 false SYNTH (to_synth1 true names (projv h n (ps_items ps)) (el_tuple (E n))) (conv_sd b' (E n))).
Proof.
  intros OK HF HV HS.
  destruct (to_synth_main h ps b names true val E OK HV HS)
    as (h1 & sp & A1 & A2 & [t A3] & A4 & A5 & A6 & A7 & A8 & A9 & A10).
  destruct (from_synth_main h1 (ps_basis ps) sp b' names' E A2 A6) as (h2 & out & B1 & B2 & [t2 B3] & B4 & B5 & B6 & B7 & B8 & B9).
  - rewrite A4. apply (po_num _ _ _ _ OK).
  - auto.
  - now rewrite A4.
  - exists h2, out. rewrite A4 in B7, B8, B9. split; [|split; [|split; [|split; [|split; [|split; [|split; [|split]]]]]]]; auto; try congruence.
    + unfold convert, to_any_basis. rewrite A1. cbn [bind]. rewrite B1. reflexivity.
    + exists (t ++ t2)%list. rewrite B3, A3. now rewrite app_assoc.
    + intros k Hk. rewrite B8, A9; auto.
    + intros n Hn. rewrite B9, A10; auto.
Qed.
