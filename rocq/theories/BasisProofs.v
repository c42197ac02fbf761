(** Symbolic execution of the basis conversions, one planet at a time. *)
From Coq Require Import Reals String Ascii Arith Bool Lia List.
From Verif Require Import Py PyFacts Params ParamsProofs ParamsSpec VectorProofs Kepler Basis BasisNum.
Import ListNotations.
Open Scope string_scope.
#[local] Arguments unkey : simpl never.
#[local] Arguments key : simpl never.

Definition locs_ok (h : heap) (d : dict nat) : Prop :=
  forall k l, In (k, l) d -> (l < length h)%nat.

(** the orbital parameters of planet [n], in dictionary order *)
Definition planet_entry (h : heap) (n : nat) (kl : string * nat) : list (string * param) :=
  match unkey n (fst kl), nth_error h (snd kl) with
  | Some p, Some q => [(p, q)]
  | _, _ => []
  end.
Definition projv (h : heap) (n : nat) (d : dict nat) : dict param := flat_map (planet_entry h n) d.

Lemma locs_cons h kl d : locs_ok h (kl :: d) -> (snd kl < length h)%nat /\ locs_ok h d.
Proof. intro H. split; [apply (H (fst kl)); left; now destruct kl|]. intros k l Hin. apply (H k). now right. Qed.

Lemma projv_get h n d p : locs_ok h d -> In p PNAMES ->
  dget (projv h n d) p = get_param h d (key p n).
Proof.
  unfold get_param. intros HL Hp. induction d as [|[k l] r IH]; auto.
  apply locs_cons in HL. destruct HL as [Hl HL]. cbn [projv flat_map dget]. unfold planet_entry at 1. cbn [fst snd].
  destruct (nth_error h l) as [q|] eqn:Eq; [|apply nth_error_None in Eq; cbn in Hl; lia].
  destruct (unkey n k) as [p'|] eqn:E.
  - apply unkey_some in E. destruct E as [-> Hp']. rewrite key_eqb by pnd. rewrite Nat.eqb_refl, andb_true_r.
    cbn [app dget]. destruct (String.eqb p p'); auto.
  - rewrite unkey_none in E. destruct (String.eqb_spec (key p n) k) as [<-|].
    + exfalso. now apply (E p Hp).
    + cbn [app]. apply IH; auto.
Qed.

Lemma projv_dset h n d k l q : locs_ok h d -> nth_error h l = Some q ->
  projv h n (dset d k l) =
  match unkey n k with Some p => dset (projv h n d) p q | None => projv h n d end.
Proof.
  intros HL Hq. induction d as [|[k' l'] r IH].
  - cbn. unfold planet_entry. cbn. rewrite Hq. destruct (unkey n k); reflexivity.
  - apply locs_cons in HL. destruct HL as [Hl HL]. cbn [snd] in Hl.
    destruct (nth_error h l') as [q'|] eqn:Eq'; [|apply nth_error_None in Eq'; lia].
    cbn [dset]. destruct (String.eqb_spec k k') as [<-|Hne].
    + cbn [projv flat_map]. unfold planet_entry at 1 3 5. cbn [fst snd]. rewrite Hq, Eq'.
      destruct (unkey n k) as [p|]; [|reflexivity]. cbn. now rewrite String.eqb_refl.
    + cbn [projv flat_map]. fold (projv h n (dset r k l)). fold (projv h n r). rewrite IH by auto.
      unfold planet_entry. cbn [fst snd]. rewrite Eq'.
      destruct (unkey n k) as [p|] eqn:E; [|reflexivity].
      destruct (unkey n k') as [p'|] eqn:E'; [|reflexivity].
      apply unkey_some in E, E'. destruct E as [-> _], E' as [-> _]. cbn.
      destruct (String.eqb_spec p p'); [subst; congruence|reflexivity].
Qed.

Lemma projv_dremove h n d k : locs_ok h d ->
  projv h n (dremove d k) =
  match unkey n k with Some p => dremove (projv h n d) p | None => projv h n d end.
Proof.
  intros HL. induction d as [|[k' l'] r IH].
  - cbn. destruct (unkey n k); reflexivity.
  - apply locs_cons in HL. destruct HL as [Hl HL]. cbn [snd] in Hl.
    destruct (nth_error h l') as [q'|] eqn:Eq'; [|apply nth_error_None in Eq'; lia].
    cbn [dremove]. destruct (String.eqb_spec k k') as [<-|Hne].
    + cbn [projv flat_map]. unfold planet_entry. cbn [fst snd]. rewrite Eq'.
      destruct (unkey n k) as [p|]; [|reflexivity]. cbn. now rewrite String.eqb_refl.
    + cbn [projv flat_map]. fold (projv h n (dremove r k)). fold (projv h n r). rewrite IH by auto.
      unfold planet_entry. cbn [fst snd]. rewrite Eq'.
      destruct (unkey n k) as [p|] eqn:E; [|reflexivity].
      destruct (unkey n k') as [p'|] eqn:E'; [|reflexivity].
      apply unkey_some in E, E'. destruct E as [-> _], E' as [-> _]. cbn.
      destruct (String.eqb_spec p p'); [subst; congruence|reflexivity].
Qed.

Lemma projv_app h t n d : locs_ok h d -> projv (h ++ t)%list n d = projv h n d.
Proof.
  intro HL. induction d as [|kl r IH]; auto. apply locs_cons in HL. destruct HL as [Hl HL].
  cbn [projv flat_map]. fold (projv (h ++ t)%list n r). fold (projv h n r). rewrite IH by auto. f_equal.
  unfold planet_entry. now rewrite nth_error_app1.
Qed.

Lemma get_param_app h t d k : locs_ok h d -> get_param (h ++ t)%list d k = get_param h d k.
Proof.
  intro HL. unfold get_param. destruct (dget d k) as [l|] eqn:E; auto.
  apply nth_error_app1. apply dget_in in E. eauto.
Qed.

Lemma in_dset {V} (d : dict V) k v k' v' : In (k', v') (dset d k v) -> (k', v') = (k, v) \/ In (k', v') d.
Proof.
  induction d as [|[a b] r IH]; cbn; [intuition|].
  destruct (String.eqb_spec k a); cbn; intuition. left. congruence.
Qed.

Lemma in_dremove {V} (d : dict V) k x : In x (dremove d k) -> In x d.
Proof. induction d as [|[a b] r IH]; cbn; auto. destruct (String.eqb k a); cbn; intuition. Qed.

Lemma in_dupdate {V} (d d2 : dict V) x : In x (dupdate d d2) -> In x d \/ In x d2.
Proof.
  unfold dupdate. revert d. induction d2 as [|[k v] r IH]; cbn; auto. intros d H.
  apply IH in H. destruct H as [H|H]; auto. destruct x as [k' v']. apply in_dset in H.
  intuition.
Qed.

Lemma locs_set_new hd k q : locs_ok (fst hd) (snd hd) ->
  locs_ok (fst (set_new hd k q)) (snd (set_new hd k q)).
Proof.
  intros HL k' l H. cbn in *. rewrite app_length. cbn. apply in_dset in H.
  destruct H as [H|H]; [inversion H; lia|]. apply HL in H. lia.
Qed.

Lemma projv_set_new hd n k q : locs_ok (fst hd) (snd hd) ->
  projv (fst (set_new hd k q)) n (snd (set_new hd k q)) =
  match unkey n k with
  | Some p => dset (projv (fst hd) n (snd hd)) p q
  | None => projv (fst hd) n (snd hd)
  end.
Proof.
  intro HL. unfold set_new; cbn [fst snd]. rewrite projv_dset with (q := q).
  - rewrite projv_app by auto. reflexivity.
  - intros k' l H. rewrite app_length. apply HL in H. lia.
  - rewrite nth_error_app2, Nat.sub_diag by lia. reflexivity.
Qed.

(** ** Relation between two states around an operation on planet [n] *)
Record planet_step (n : nat) (hd hd' : heap * dict nat) : Prop := {
  s_locs : locs_ok (fst hd') (snd hd');
  s_ext : exists t, fst hd' = (fst hd ++ t)%list;
  s_other : forall m, m <> n -> projv (fst hd') m (snd hd') = projv (fst hd) m (snd hd);
  s_frame : forall k, unkey n k = None -> dget (snd hd') k = dget (snd hd) k;
  s_wf : NoDup (dkeys (snd hd)) -> NoDup (dkeys (snd hd'));
  s_extra : filter is_extra (dkeys (snd hd')) = filter is_extra (dkeys (snd hd)) }.

Lemma planet_step_refl n hd : locs_ok (fst hd) (snd hd) -> planet_step n hd hd.
Proof. intro H. constructor; auto. exists []. now rewrite app_nil_r. Qed.

Lemma planet_step_trans n a b c : planet_step n a b -> planet_step n b c -> planet_step n a c.
Proof.
  intros [A1 [t A2] A3 A4 A5 A6] [B1 [t' B2] B3 B4 B5 B6]. constructor; auto.
  - exists (t ++ t')%list. now rewrite B2, A2, app_assoc.
  - intros m Hm. rewrite B3, A3; auto.
  - intros k Hk. rewrite B4, A4; auto.
  - congruence.
Qed.

Lemma filter_extra_dset {V} (d : dict V) k v : is_extra k = false ->
  filter is_extra (dkeys (dset d k v)) = filter is_extra (dkeys d).
Proof.
  intro H. rewrite dkeys_dset. destruct (dmem d k); auto.
  rewrite filter_app. cbn. rewrite H. apply app_nil_r.
Qed.

Lemma filter_extra_dremove {V} (d : dict V) k : is_extra k = false ->
  filter is_extra (dkeys (dremove d k)) = filter is_extra (dkeys d).
Proof.
  intro H. unfold dkeys. induction d as [|[a b] r IH]; auto. cbn [dremove map fst filter].
  destruct (String.eqb_spec k a) as [->|].
  - now rewrite H.
  - cbn [map fst filter]. now rewrite IH.
Qed.

Lemma step_set_new n hd p q : locs_ok (fst hd) (snd hd) -> In p PNAMES ->
  planet_step n hd (set_new hd (key p n) q).
Proof.
  intros HL Hp. constructor.
  - now apply locs_set_new.
  - now exists [q].
  - intros m Hm. rewrite projv_set_new by auto. now rewrite unkey_other.
  - intros k Hk. cbn. apply dget_dset_other. intro; subst. rewrite unkey_key in Hk; auto. discriminate.
  - intro H. now apply wf_dset.
  - apply filter_extra_dset. now apply pnames_not_extra.
Qed.

Lemma step_del n (h : heap) (d : dict nat) p : locs_ok h d -> In p PNAMES ->
  planet_step n (h, d) (h, dremove d (key p n)).
Proof.
  intros HL Hp. constructor; cbn [fst snd].
  - intros k l H. apply in_dremove in H. eauto.
  - exists []. now rewrite app_nil_r.
  - intros m Hm. rewrite projv_dremove by auto. now rewrite unkey_other.
  - intros k Hk. apply dget_dremove_other. intro; subst. rewrite unkey_key in Hk; auto. discriminate.
  - intro H. now apply wf_dremove.
  - apply filter_extra_dremove. now apply pnames_not_extra.
Qed.

(** a loop over planets, each iteration working on its own planet *)
Lemma planets_loop (ns : list nat) (f : heap * dict nat -> nat -> res (heap * dict nat))
    (F : nat -> dict param -> dict param) hd0 :
  NoDup ns -> locs_ok (fst hd0) (snd hd0) ->
  (forall hd n, In n ns -> locs_ok (fst hd) (snd hd) ->
     projv (fst hd) n (snd hd) = projv (fst hd0) n (snd hd0) ->
     exists hd', f hd n = Ok hd' /\ planet_step n hd hd' /\
                 projv (fst hd') n (snd hd') = F n (projv (fst hd) n (snd hd))) ->
  exists hd', for_each ns f hd0 = Ok hd' /\
    locs_ok (fst hd') (snd hd') /\
    (exists t, fst hd' = (fst hd0 ++ t)%list) /\
    (forall n, In n ns -> projv (fst hd') n (snd hd') = F n (projv (fst hd0) n (snd hd0))) /\
    (forall n, ~ In n ns -> projv (fst hd') n (snd hd') = projv (fst hd0) n (snd hd0)) /\
    (forall k, (forall n, In n ns -> unkey n k = None) -> dget (snd hd') k = dget (snd hd0) k) /\
    (NoDup (dkeys (snd hd0)) -> NoDup (dkeys (snd hd'))) /\
    filter is_extra (dkeys (snd hd')) = filter is_extra (dkeys (snd hd0)).
Proof.
  revert hd0. induction ns as [|n r IH]; intros hd0 ND HL H.
  - exists hd0. cbn. repeat split; auto; try easy. exists []. now rewrite app_nil_r.
  - inversion ND; subst. destruct (H hd0 n) as (hd1 & E1 & S1 & P1); auto; [now left|].
    destruct (IH hd1) as (hd' & E' & L' & X' & I' & O' & K' & W' & Z').
    + auto.
    + apply S1.
    + intros hd m Hm HLm Pm. apply (H hd m); auto; [now right|]. rewrite Pm.
      apply (s_other _ _ _ S1). intro; subst; contradiction.
    + exists hd'. cbn [for_each]. rewrite E1. cbn [bind]. split; auto. split; auto.
      split; [|split; [|split; [|split; [|split]]]].
      * destruct X' as [t' X'], (s_ext _ _ _ S1) as [t X]. exists (t ++ t')%list.
        now rewrite X', X, app_assoc.
      * intros m [<-|Hm].
        -- rewrite O', P1; auto.
        -- rewrite I' by auto. rewrite (s_other _ _ _ S1); auto. intro; subst; contradiction.
      * intros m Hm. rewrite O' by (intro; apply Hm; now right).
        apply (s_other _ _ _ S1). intro; subst. apply Hm. now left.
      * intros k Hk. rewrite K' by (intros; apply Hk; now right).
        apply (s_frame _ _ _ S1). apply Hk. now left.
      * intro HN. apply W'. now apply (s_wf _ _ _ S1).
      * rewrite Z'. apply (s_extra _ _ _ S1).
Qed.

(** ** The constructor and _copy_params *)

Lemma init_fold_gen ks hd : locs_ok (fst hd) (snd hd) ->
  let hd' := fold_left (fun hd k => set_new hd k parameter_default) ks hd in
  locs_ok (fst hd') (snd hd') /\ (exists t, fst hd' = (fst hd ++ t)%list) /\
  (forall n, projv (fst hd') n (snd hd') =
     fold_left (fun d k => match unkey n k with Some p => dset d p parameter_default | None => d end)
               ks (projv (fst hd) n (snd hd))) /\
  (NoDup (dkeys (snd hd)) -> NoDup (dkeys (snd hd'))) /\
  (forall k, In k (dkeys (snd hd')) <-> In k (dkeys (snd hd)) \/ In k ks) /\
  (forall k l, dget (snd hd') k = Some l -> dget (snd hd) k = Some l \/ (length (fst hd) <= l)%nat) /\
  (forall k, In k ks -> get_param (fst hd') (snd hd') k = Some parameter_default).
Proof.
  revert hd. induction ks as [|k r IH]; intros hd HL; cbn zeta.
  - cbn. repeat split; auto; try tauto. exists []. now rewrite app_nil_r.
  - cbn [fold_left]. specialize (IH (set_new hd k parameter_default) (locs_set_new hd k _ HL)).
    cbn zeta in IH. destruct IH as (A & [t B] & C & D & E & F & G).
    set (hd' := fold_left _ r _) in *.
    split; auto. split; [exists ([parameter_default] ++ t)%list; rewrite B; cbn; now rewrite <- app_assoc|].
    split; [intro n; rewrite C, projv_set_new; auto|]. split; [intro HN; apply D; now apply wf_dset|].
    split; [|split].
    + intro k'. rewrite E. cbn [set_new snd]. rewrite dkeys_dset. unfold dmem.
      destruct (dget (snd hd) k) eqn:Ek.
      * apply dget_key in Ek. cbn. intuition (subst; auto).
      * rewrite in_app_iff. cbn. tauto.
    + intros k' l Hg. apply F in Hg. cbn [set_new fst snd] in Hg. rewrite app_length in Hg. cbn in Hg.
      destruct Hg as [Hg|Hg]; [|right; lia]. destruct (String.eqb_spec k' k) as [->|Hne].
      * rewrite dget_dset_same in Hg. inversion Hg. right. lia.
      * rewrite dget_dset_other in Hg; auto.
    + intros k' [<-|Hin]; [|auto].
      destruct (in_dec string_dec k r) as [Hr|Hr]; [auto|].
      assert (dget (snd hd') k = Some (length (fst hd))) as E1.
      { unfold hd'. clear -Hr. revert hd. induction r as [|a r IH]; intro hd.
        - cbn. apply dget_dset_same.
        - cbn [fold_left] in *.
          assert (forall ks hd, ~ In k ks -> 
             dget (snd (fold_left (fun hd k => set_new hd k parameter_default) ks hd)) k = dget (snd hd) k) as Q.
          { clear. induction ks as [|b ks IH]; intros hd H; auto. cbn [fold_left]. rewrite IH by (cbn in H; tauto).
            cbn. apply dget_dset_other. cbn in H. intuition. }
          rewrite Q by (cbn in Hr; tauto). cbn. rewrite dget_dset_other by (cbn in Hr; intuition).
          apply dget_dset_same. }
      unfold get_param. rewrite E1, B. cbn. rewrite <- app_assoc. cbn.
      rewrite nth_error_app2, Nat.sub_diag by lia. reflexivity.
Qed.

(** the default entries of planet n *)
Lemma default_proj num names n : NoDup names -> (forall p, In p names -> In p PNAMES) -> (1 <= n <= num)%nat ->
  fold_left (fun d k => match unkey n k with Some p => dset d p parameter_default | None => d end)
            (default_keys num names) [] = map (fun p => (p, parameter_default)) names.
Proof.
  intros ND HP Hn.
  assert (forall m d, m <> n ->
    fold_left (fun d k => match unkey n k with Some p => dset d p parameter_default | None => d end)
              (map (fun p => key p m) names) d = d) as SKIP.
  { intros m d Hm. clear ND. revert d. induction names as [|p r IH]; cbn [map fold_left]; auto. intro d.
    rewrite unkey_other by (auto with datatypes). apply IH. intros; apply HP; now right. }
  assert (forall d, (forall p, In p names -> dget d p = None) ->
    fold_left (fun d k => match unkey n k with Some p => dset d p parameter_default | None => d end)
              (map (fun p => key p n) names) d = (d ++ map (fun p => (p, parameter_default)) names)%list) as DO.
  { clear SKIP. induction names as [|p r IH]; cbn [map fold_left]; intros d Hd; [now rewrite app_nil_r|].
    inversion ND; subst. rewrite unkey_key by (apply HP; now left).
    assert (dset d p parameter_default = (d ++ [(p, parameter_default)])%list) as ->.
    { assert (dget d p = None) as E by (apply Hd; now left). clear -E.
      induction d as [|[a b] r IH]; auto. cbn in *. destruct (String.eqb p a); [discriminate|].
      now rewrite IH. }
    rewrite IH; auto.
    - now rewrite <- app_assoc.
    - intros; apply HP; now right.
    - intros q Hq. apply dget_none. unfold dkeys. rewrite map_app, in_app_iff. cbn.
      intros [H|[->|[]]]; [|contradiction]. apply (dget_none d q); auto. apply Hd. now right. }
  unfold default_keys.
  assert (forall ms d, ~ In n ms ->
    fold_left (fun d k => match unkey n k with Some p => dset d p parameter_default | None => d end)
              (flat_map (fun n => map (fun p => key p n) names) ms) d = d) as SKIPS.
  { induction ms as [|m ms IH]; auto. intros d H. cbn [flat_map]. rewrite fold_left_app.
    rewrite SKIP by (intro; subst; apply H; now left). apply IH. intro; apply H; now right. }
  assert (seq 1 num = seq 1 (n - 1) ++ n :: seq (S n) (num - n))%list as ->.
  { replace num with ((n - 1) + (1 + (num - n)))%nat at 1 by lia. rewrite seq_app. f_equal.
    replace (1 + (n - 1))%nat with n by lia. reflexivity. }
  rewrite flat_map_app, fold_left_app. rewrite (SKIPS (seq 1 (n - 1))) by (rewrite in_seq; lia).
  cbn [flat_map]. rewrite fold_left_app. rewrite DO by auto. cbn [app].
  apply SKIPS. rewrite in_seq. lia.
Qed.

Lemma projv_dupdate h n d d2 : locs_ok h d -> locs_ok h d2 ->
  projv h n (dupdate d d2) = dupdate (projv h n d) (projv h n d2).
Proof.
  unfold dupdate. revert d. induction d2 as [|[k l] r IH]; intros d HL HL2; auto.
  pose proof HL2 as HL2'. apply locs_cons in HL2'. destruct HL2' as [Hl HLr]. cbn [snd] in Hl.
  cbn [fold_left fst snd]. destruct (nth_error h l) as [q|] eqn:Eq; [|apply nth_error_None in Eq; lia].
  rewrite IH; auto.
  - rewrite projv_dset with (q := q) by auto. cbn [projv flat_map]. unfold planet_entry at 1. cbn [fst snd].
    rewrite Eq. destruct (unkey n k) as [p|] eqn:E; reflexivity.
  - intros k' l' H. apply in_dset in H. destruct H as [H|H]; [inversion H; subst; auto|eauto].
Qed.

(** result of _copy_params *)
Lemma copy_params_spec h ps h1 q : copy_params h ps = (h1, q) -> locs_ok h (ps_items ps) ->
  NoDup (dkeys (ps_items ps)) ->
  let names := split (b_name (ps_basis ps)) in
  locs_ok h1 (ps_items q) /\ (exists t, h1 = (h ++ t)%list) /\ NoDup (dkeys (ps_items q)) /\
  ps_num q = ps_num ps /\ ps_letters q = ps_letters ps /\
  b_name (ps_basis q) = b_name (ps_basis ps) /\ b_num (ps_basis q) = ps_num ps /\ ps_pp q = names /\
  (forall k, In k (dkeys (ps_items q)) <-> In k (dkeys (ps_items ps)) \/ In k (default_keys (ps_num ps) names)) /\
  (forall k l, dget (ps_items ps) k = Some l -> dget (ps_items q) k = Some l) /\
  (forall k l, dget (ps_items q) k = Some l -> dget (ps_items ps) k = Some l \/ (length h <= l)%nat) /\
  (forall k, ~ In k (dkeys (ps_items ps)) -> In k (default_keys (ps_num ps) names) ->
     get_param h1 (ps_items q) k = Some parameter_default) /\
  (NoDup names -> (forall p, In p names -> In p PNAMES) -> forall n, (1 <= n <= ps_num ps)%nat ->
     projv h1 n (ps_items q) =
     dupdate (map (fun p => (p, parameter_default)) names) (projv h n (ps_items ps))).
Proof.
  intros E HL ND. cbn zeta. unfold copy_params, parameters_init in E.
  assert (locs_ok (fst (h, @nil (string * nat))) (snd (h, @nil (string * nat)))) as H0 by (intros k l []).
  cbn [b_name basis_init] in E.
  pose proof (init_fold_gen (default_keys (ps_num ps) (split (b_name (ps_basis ps)))) (h, []) H0) as I.
  cbn zeta in I. destruct (fold_left _ _ _) as [h1' d0]. cbn [fst snd] in I.
  destruct I as (A & [t B] & C & D & F & G & K). inversion E; subst h1 q; clear E. cbn [ps_items ps_num ps_letters ps_basis ps_pp b_name b_num basis_init].
  assert (locs_ok h1' (ps_items ps)) as HL'.
  { intros k l H. rewrite B, app_length. apply HL in H. lia. }
  assert (forall k l, dget (ps_items ps) k = Some l -> dget (dupdate d0 (ps_items ps)) k = Some l) as U1
    by (intros; now apply dget_dupdate_in).
  assert (forall k, ~ In k (dkeys (ps_items ps)) -> dget (dupdate d0 (ps_items ps)) k = dget d0 k) as U2
    by (intros; now apply dget_dupdate_notin).
  repeat split; auto.
  - intros k l H. apply in_dupdate in H. destruct H; eauto.
  - eauto.
  - apply wf_dupdate. apply D. constructor.
  - intro Hin. destruct (in_dec string_dec k (dkeys (ps_items ps))) as [|Hn]; auto.
    right. apply dget_some_key in Hin. destruct Hin as [l Hl]. rewrite U2 in Hl by auto.
    apply dget_key in Hl. apply F in Hl. destruct Hl as [[]|]; auto.
  - intro Hin. destruct (in_dec string_dec k (dkeys (ps_items ps))) as [Hi|Hn].
    + apply dget_some_key in Hi. destruct Hi as [l Hl]. apply U1 in Hl. eapply dget_key; eauto.
    + destruct Hin as [|Hin]; [contradiction|].
      assert (In k (dkeys d0)) as Hd by (apply F; auto). apply dget_some_key in Hd. destruct Hd as [l Hl].
      rewrite <- U2 in Hl by auto. eapply dget_key; eauto.
  - intros k l Hg. destruct (in_dec string_dec k (dkeys (ps_items ps))) as [Hi|Hn].
    + apply dget_some_key in Hi. destruct Hi as [l' Hl']. left. rewrite (U1 _ _ Hl') in Hg. congruence.
    + rewrite U2 in Hg by auto. apply G in Hg. destruct Hg as [Hg|Hg]; [discriminate|auto].
  - intros k Hk Hd. unfold get_param. rewrite U2 by auto. apply K. auto.
  - intros NN HP n Hn. rewrite projv_dupdate by auto. rewrite C. cbn [projv flat_map].
    rewrite default_proj by auto. f_equal. rewrite B. now apply projv_app.
Qed.

(** ** Per-planet versions of _setpar and _delpar *)

Definition set1_to (noVary : bool) (src : dict param) (d : dict param) (pv : string * R) : dict param :=
  dset d (fst pv)
    (match dget src (fst pv) with
     | Some q => mkParam (Some (snd pv)) (p_vary q) (p_scale q) false
     | None => mkParam (Some (snd pv)) (if noVary then VEmpty else VBool true) None false
     end).

Definition set1_from := set1_to false.

Lemma setpar_from_to h0 src n hd pv : setpar_from h0 src n hd pv = setpar_to false h0 src n hd pv.
Proof. reflexivity. Qed.

Lemma fold_setpar noVary h0 src n sets hd : locs_ok h0 src -> locs_ok (fst hd) (snd hd) ->
  (forall pv, In pv sets -> In (fst pv) PNAMES) ->
  let hd' := fold_left (setpar_to noVary h0 src n) sets hd in
  planet_step n hd hd' /\
  projv (fst hd') n (snd hd') = fold_left (set1_to noVary (projv h0 n src)) sets (projv (fst hd) n (snd hd)).
Proof.
  intros H0. revert hd. induction sets as [|pv r IH]; intros hd HL HP; cbn zeta.
  - split; [now apply planet_step_refl|reflexivity].
  - cbn [fold_left]. assert (In (fst pv) PNAMES) as Hpv by (apply HP; now left).
    assert (exists q, setpar_to noVary h0 src n hd pv = set_new hd (key (fst pv) n) q /\
             forall d, set1_to noVary (projv h0 n src) d pv = dset d (fst pv) q) as (q & E1 & E2).
    { unfold setpar_to, set1_to. rewrite projv_get by auto.
      destruct (get_param h0 src (key (fst pv) n)); eauto. }
    rewrite E1, E2. pose proof (step_set_new n hd (fst pv) q HL Hpv) as S.
    destruct (IH (set_new hd (key (fst pv) n) q)) as [S' P'].
    + apply S.
    + intros; apply HP; now right.
    + split; [eapply planet_step_trans; eauto|]. rewrite P'. f_equal.
      rewrite projv_set_new by auto. now rewrite unkey_key.
Qed.

Lemma fold_delpar n dels h d : locs_ok h d -> NoDup dels ->
  (forall p, In p dels -> In p PNAMES /\ dmem (projv h n d) p = true) ->
  exists d', for_each dels (delpar n) d = Ok d' /\ planet_step n (h, d) (h, d') /\
    projv h n d' = fold_left (fun x p => dremove x p) dels (projv h n d).
Proof.
  revert d. induction dels as [|p r IH]; intros d HL ND H.
  - exists d. repeat split; auto. now apply planet_step_refl.
  - inversion ND; subst. destruct (H p) as [Hp Hm]; [now left|]. cbn [for_each].
    unfold delpar at 1, ddel. unfold dmem in Hm. rewrite projv_get in Hm by auto. unfold get_param in Hm.
    destruct (dget d (key p n)) eqn:E; [|discriminate]. cbn [bind].
    pose proof (step_del n h d p HL Hp) as S.
    assert (projv h n (dremove d (key p n)) = dremove (projv h n d) p) as P
      by (rewrite projv_dremove by auto; now rewrite unkey_key).
    destruct (IH (dremove d (key p n))) as (d' & E' & S' & P').
    + apply (s_locs _ _ _ S).
    + auto.
    + intros q Hq. destruct (H q) as [Hqp Hqm]; [now right|]. split; auto. rewrite P.
      unfold dmem in *. rewrite dget_dremove_other; auto. intro; subst; contradiction.
    + exists d'. split; auto. split; [eapply planet_step_trans; eauto|]. cbn [fold_left]. now rewrite P', P.
Qed.

(** reading a planet's values *)
Definition get1 (n : nat) (src : dict param) (p : string) : res R :=
  match dget src p with
  | None => Err (KeyError (key p n))
  | Some q => match p_value q with Some v => Ok v | None => Err TypeError end
  end.

Lemma getpar_get1 h d n p : locs_ok h d -> In p PNAMES -> getpar h d n p = get1 n (projv h n d) p.
Proof. intros HL Hp. unfold getpar, get1. now rewrite projv_get. Qed.

Definition in_names : string -> Prop := fun p => In p PNAMES.

Lemma synth_of_ext name g g' : (forall p, In p PNAMES -> g p = g' p) -> synth_of name g = synth_of name g'.
Proof.
  intro H. unfold synth_of.
  rewrite !(H "per"), !(H "tp"), !(H "tc"), !(H "e"), !(H "w"), !(H "k"), !(H "se"), !(H "secosw"),
    !(H "sesinw"), !(H "ecosw"), !(H "esinw"), !(H "logper"), !(H "logk") by (cbn; tauto). reflexivity.
Qed.

Lemma from_synth_of_ext name b g g' : (forall p, In p PNAMES -> g p = g' p) ->
  from_synth_of name b g = from_synth_of name b g'.
Proof.
  intro H. unfold from_synth_of, tp_source.
  rewrite !(H "per"), !(H "tp"), !(H "tc"), !(H "e"), !(H "w"), !(H "k") by (cbn; tauto). reflexivity.
Qed.

(** the dictionary of one planet after to_synth *)
Definition sets_of (el : R * R * R * R * R) : list (string * R) :=
  let '(per, tp, e, w, k) := el in [("per", per); ("tp", tp); ("e", e); ("w", w); ("k", k)].

Definition to_synth1 (noVary : bool) (names : list string) (src : dict param) (el : R * R * R * R * R)
  : dict param :=
  fold_left (set1_to noVary src) (sets_of el)
    (dupdate (map (fun p => (p, parameter_default)) names) src).

Lemma to_synth_spec h self ps noVary kname el :
  locs_ok h (ps_items ps) -> NoDup (dkeys (ps_items ps)) ->
  let name := match kname with Some s => s | None => b_name self end in
  let names := split (b_name (ps_basis ps)) in
  (forall n, (1 <= n <= b_num self)%nat -> synth_of name (get1 n (projv h n (ps_items ps))) = Ok (el n)) ->
  exists h' out, to_synth h self ps noVary kname = Ok (h', out) /\
    locs_ok h' (ps_items out) /\ NoDup (dkeys (ps_items out)) /\ (exists t, h' = (h ++ t)%list) /\
    ps_num out = ps_num ps /\ ps_letters out = ps_letters ps /\
    ps_basis out = basis_init "per tp e w k" (b_num self) /\ ps_pp out = ["per"; "tp"; "e"; "w"; "k"] /\
    (forall k, (forall n, (1 <= n <= b_num self)%nat -> unkey n k = None) ->
       (In k (dkeys (ps_items ps)) -> dget (ps_items out) k = dget (ps_items ps) k) /\
       (~ In k (dkeys (ps_items ps)) -> ~ In k (default_keys (ps_num ps) names) -> dget (ps_items out) k = None)) /\
    (NoDup names -> (forall p, In p names -> In p PNAMES) ->
     forall n, (1 <= n <= b_num self)%nat -> (n <= ps_num ps)%nat ->
       projv h' n (ps_items out) = to_synth1 noVary names (projv h n (ps_items ps)) (el n)).
Proof.
  intros HL ND name names HS. unfold to_synth. fold name.
  destruct (copy_params h ps) as [h1 q] eqn:EC.
  destruct (copy_params_spec h ps h1 q EC HL ND) as (C1 & [t C2] & C3 & C4 & C5 & C6 & C7 & C8 & C9 & C10 & C11 & C12 & C13).
  fold names in C8, C9, C12, C13.
  destruct (planets_loop (seq 1 (b_num self))
     (fun hd n => do (per, tp, e, w, k) <- synth_of name (getpar h (ps_items ps) n);
        Ok (fold_left (setpar_to noVary h (ps_items ps) n)
              [("per", per); ("tp", tp); ("e", e); ("w", w); ("k", k)] hd))
     (fun n d => fold_left (set1_to noVary (projv h n (ps_items ps))) (sets_of (el n)) d)
     (h1, ps_items q)) as (hd' & E' & L' & X' & I' & O' & K' & W' & Z').
  - apply seq_NoDup.
  - exact C1.
  - intros hd n Hn HLn _. rewrite (synth_of_ext name _ (get1 n (projv h n (ps_items ps)))).
    2:{ intros p Hp. now apply getpar_get1. }
    rewrite HS by (apply in_seq in Hn; lia). destruct (el n) as [[[[per tp] e] w] k]. cbn [bind].
    eexists. split; [reflexivity|]. apply fold_setpar; auto. cbn. intuition (subst; cbn; tauto).
  - cbn [fst snd] in *. rewrite E'. cbn [bind].
    exists (fst hd'). eexists. split; [reflexivity|].
    cbn [ps_items ps_num ps_letters ps_basis ps_pp].
    split; auto. split; auto. split.
    { destruct X' as [t' X']. exists (t ++ t')%list. rewrite X', C2. now rewrite app_assoc. }
    split; auto. split; auto. split; auto. split; auto. split.
    + intros k Hk. rewrite K' by (intros m Hm; apply Hk; apply in_seq in Hm; lia). split.
      * intro Hin. apply dget_some_key in Hin. destruct Hin as [l Hl]. rewrite Hl. auto.
      * intros H1 H2. apply dget_none. intro H. apply C9 in H. tauto.
    + intros NN HP n Hn Hn'. rewrite I' by (apply in_seq; lia). unfold to_synth1. rewrite C13 by (auto; lia). reflexivity.
Qed.

(** from_synth *)
Definition from_synth1 (keep : bool) (names : list string) (src : dict param)
    (sd : list (string * R) * list string) : dict param :=
  let d := fold_left (set1_from src) (fst sd)
             (dupdate (map (fun p => (p, parameter_default)) names) src) in
  if keep then d else fold_left (fun x p => dremove x p) (snd sd) d.

Lemma dmem_dset {V} (d : dict V) k v k' : dmem (dset d k v) k' = (String.eqb k' k || dmem d k')%bool.
Proof.
  unfold dmem. destruct (String.eqb_spec k' k) as [->|H].
  - now rewrite dget_dset_same.
  - now rewrite dget_dset_other.
Qed.

Lemma from_synth_spec h self ps newbasis keep sd :
  locs_ok h (ps_items ps) -> NoDup (dkeys (ps_items ps)) -> str_in newbasis BASIS_NAMES = true ->
  let names := split (b_name (ps_basis ps)) in
  NoDup names -> (forall p, In p names -> In p PNAMES) -> (b_num self <= ps_num ps)%nat ->
  (forall n, (1 <= n <= b_num self)%nat ->
     from_synth_of newbasis (str_in "tp" (ps_pp ps)) (get1 n (projv h n (ps_items ps))) = Ok (sd n) /\
     (forall pv, In pv (fst (sd n)) -> In (fst pv) PNAMES) /\
     NoDup (snd (sd n)) /\
     (forall p, In p (snd (sd n)) -> In p names \/ In p (dkeys (projv h n (ps_items ps))) \/ In p (map fst (fst (sd n)))) /\
     (forall p, In p (snd (sd n)) -> In p PNAMES)) ->
  exists h' out, from_synth h self ps newbasis keep = Ok (h', self_after self newbasis, Some out) /\
    locs_ok h' (ps_items out) /\ NoDup (dkeys (ps_items out)) /\ (exists t, h' = (h ++ t)%list) /\
    ps_num out = ps_num ps /\ ps_letters out = ps_letters ps /\
    ps_basis out = basis_init newbasis (b_num self) /\ ps_pp out = split newbasis /\
    (forall k, (forall n, (1 <= n <= b_num self)%nat -> unkey n k = None) ->
       (In k (dkeys (ps_items ps)) -> dget (ps_items out) k = dget (ps_items ps) k) /\
       (~ In k (dkeys (ps_items ps)) -> ~ In k (default_keys (ps_num ps) names) -> dget (ps_items out) k = None)) /\
    (forall n, (1 <= n <= b_num self)%nat ->
       projv h' n (ps_items out) = from_synth1 keep names (projv h n (ps_items ps)) (sd n)).
Proof.
  intros HL ND HB names NN HP HNum HS. unfold from_synth. rewrite HB. cbn [negb].
  destruct (copy_params h ps) as [h1 q] eqn:EC.
  destruct (copy_params_spec h ps h1 q EC HL ND) as (C1 & [t C2] & C3 & C4 & C5 & C6 & C7 & C8 & C9 & C10 & C11 & C12 & C13).
  fold names in C8, C9, C12, C13.
  destruct (planets_loop (seq 1 (b_num self))
     (fun hd n => do (sets, dels) <- from_synth_of newbasis (str_in "tp" (ps_pp ps)) (getpar h (ps_items ps) n);
        let hd1 := fold_left (setpar_from h (ps_items ps) n) sets hd in
        if keep then Ok hd1 else do d2 <- for_each dels (delpar n) (snd hd1); Ok (fst hd1, d2))
     (fun n d => let d1 := fold_left (set1_from (projv h n (ps_items ps))) (fst (sd n)) d in
                 if keep then d1 else fold_left (fun x p => dremove x p) (snd (sd n)) d1)
     (h1, ps_items q)) as (hd' & E' & L' & X' & I' & O' & K' & W' & Z').
  - apply seq_NoDup.
  - exact C1.
  - intros hd n Hn HLn HPr. assert (1 <= n <= b_num self)%nat as Hn' by (apply in_seq in Hn; lia).
    destruct (HS n Hn') as (F1 & F2 & F3 & F4 & F5).
    rewrite (from_synth_of_ext newbasis _ _ (get1 n (projv h n (ps_items ps)))).
    2:{ intros p Hp. now apply getpar_get1. }
    rewrite F1. destruct (sd n) as [sets dels]. cbn [bind fst snd] in *. cbn zeta.
    change (setpar_from h (ps_items ps) n) with (setpar_to false h (ps_items ps) n).
    destruct (fold_setpar false h (ps_items ps) n sets hd HL HLn F2) as [S P].
    set (hd1 := fold_left (setpar_to false h (ps_items ps) n) sets hd) in *.
    destruct keep; [exists hd1; auto|].
    destruct hd1 as [h2 d2]. cbn [fst snd] in *.
    destruct (fold_delpar n dels h2 d2) as (d3 & E3 & S3 & P3); auto.
    + apply S.
    + intros p Hp. split; auto. rewrite P, HPr. cbn [fst snd]. rewrite (C13 NN HP n) by lia.
      assert (forall s d, (In p (map fst s) \/ dmem d p = true) ->
                dmem (fold_left (set1_to false (projv h n (ps_items ps))) s d) p = true) as Q.
      { clear. induction s as [|pv r IH]; intros d H; cbn [fold_left].
        - destruct H as [[]|]; auto.
        - apply IH. unfold set1_to. rewrite dmem_dset. destruct (String.eqb_spec p (fst pv)); cbn; auto.
          destruct H as [[H|H]|H]; auto. }
      apply Q. destruct (F4 p Hp) as [H|[H|H]]; auto; right; apply dmem_in.
      * destruct (in_dec string_dec p (dkeys (projv h n (ps_items ps)))) as [Hi|Hni].
        -- apply dget_some_key in Hi. destruct Hi as [v Hv].
           apply dmem_in. unfold dmem.
           assert (forall d2 (d : dict param), In p (dkeys d2) -> dmem (dupdate d d2) p = true) as Q2.
           { clear. unfold dupdate. induction d2 as [|[a b] r IH]; cbn; [easy|]. intros d [<-|H]; [|auto].
             assert (forall r (d : dict param), dmem d a = true ->
               dmem (fold_left (fun acc kv => dset acc (fst kv) (snd kv)) r d) a = true) as Q.
             { clear. induction r as [|x r IH]; cbn; auto. intros d H. apply IH. rewrite dmem_dset, H. apply orb_true_r. }
             apply Q. rewrite dmem_dset, String.eqb_refl. reflexivity. }
           apply Q2. eapply dget_key; eauto.
        -- apply dmem_in. unfold dmem. rewrite dget_dupdate_notin by auto.
           assert (In p (dkeys (map (fun p => (p, parameter_default)) names))) as Hi.
           { unfold dkeys. rewrite map_map. cbn. now rewrite map_id. }
           apply dget_some_key in Hi. destruct Hi as [v ->]. reflexivity.
      * apply dmem_in.
        assert (forall d2 (d : dict param), In p (dkeys d2) -> dmem (dupdate d d2) p = true) as Q2.
        { clear. unfold dupdate. induction d2 as [|[a b] r IH]; cbn; [easy|]. intros d [<-|H]; [|auto].
          assert (forall r (d : dict param), dmem d a = true ->
            dmem (fold_left (fun acc kv => dset acc (fst kv) (snd kv)) r d) a = true) as Q.
          { clear. induction r as [|x r IH]; cbn; auto. intros d H. apply IH. rewrite dmem_dset, H. apply orb_true_r. }
          apply Q. rewrite dmem_dset, String.eqb_refl. reflexivity. }
        now apply Q2.
    + exists (h2, d3). rewrite E3. cbn [bind fst snd]. split; auto. split; [eapply planet_step_trans; eauto|].
      rewrite P3, P. reflexivity.
  - cbn [fst snd] in *. rewrite E'. cbn [bind].
    exists (fst hd'). eexists. split; [reflexivity|].
    cbn [ps_items ps_num ps_letters ps_basis ps_pp].
    split; auto. split; auto. split.
    { destruct X' as [t' X']. exists (t ++ t')%list. rewrite X', C2. now rewrite app_assoc. }
    split; auto. split; auto. split; auto. split; auto. split.
    + intros k Hk. rewrite K' by (intros m Hm; apply Hk; apply in_seq in Hm; lia). split.
      * intro Hin. apply dget_some_key in Hin. destruct Hin as [l Hl]. rewrite Hl. auto.
      * intros H1 H2. apply dget_none. intro H. apply C9 in H. tauto.
    + intros n Hn. rewrite I' by (apply in_seq; lia). unfold from_synth1. rewrite C13 by (auto; lia). reflexivity.
Qed.
