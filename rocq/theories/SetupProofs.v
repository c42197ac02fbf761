(** Proofs about Setup.v (C55). *)
From Coq Require Import Reals String Ascii Arith Bool Lia Permutation List.
From Verif Require Import Py PyFloat PyFacts Params ParamsProofs ParamsSpec VectorProofs Basis BasisProofs RVModel Likelihood LikeBuild LikeMore Gp Setup SetupSpec.
Import ListNotations.
Open Scope string_scope.

Lemma rows_own data inst : own_rows inst data (rows_for data inst).
Proof.
  induction data as [|o l IH]; cbn; [constructor|]. destruct (String.eqb_spec (o_tel o) inst); constructor; auto.
Qed.
Lemma own_unique inst data r : own_rows inst data r -> r = rows_for data inst.
Proof.
  induction 1 as [|o l r E _ IH|o l r E _ IH]; auto; unfold rows_for; cbn [filter]; fold (rows_for l inst).
  - rewrite E, String.eqb_refl. congruence.
  - destruct (String.eqb_spec (o_tel o) inst); congruence.
Qed.
Lemma rows_in data inst o : In o (rows_for data inst) <-> In o data /\ o_tel o = inst.
Proof. unfold rows_for. rewrite filter_In. now rewrite String.eqb_eq. Qed.

(** ** logjit *)
Lemma starts_iff k : startswith k "logjit" = true <-> logjit_key k.
Proof.
  unfold startswith, logjit_key. split.
  - intro H. cbn [String.prefix] in H.
    do 6 (destruct k as [|? k]; [discriminate H|]; cbn [String.prefix] in H; match type of H with (if ?b then _ else _) = true => destruct b as [<-|]; [|discriminate H] end).
    now exists k.
  - intros [s ->]. cbn. now destruct s.
Qed.

Lemma replace_skip c r : ~ logjit_key (String c r) -> replace_logjit (String c r) = String c (replace_logjit r).
Proof.
  intro H. cbn [replace_logjit].
  repeat match goal with
  | |- context [match ?x with _ => _ end] => is_var x; destruct x; try reflexivity
  end.
  exfalso. apply H. eexists. reflexivity.
Qed.

Lemma replace_other s : ~ contains "logjit" s -> replace_logjit s = s.
Proof.
  induction s as [|c s IH]; auto. intro H. rewrite replace_skip.
  - rewrite IH; auto. intros (a & b & ->). apply H. exists (String c a), b. reflexivity.
  - intros [t E]. apply H. exists "", t. exact E.
Qed.

Lemma replace_key s : ~ contains "logjit" s -> replace_logjit ("logjit" ++ s) = "jit" ++ s.
Proof. intro H. cbn. now rewrite replace_other. Qed.

Lemma loop_none keys h d : (forall k, In k keys -> ~ logjit_key k) -> logjit_loop keys false h d = Ok (h, d).
Proof.
  induction keys as [|k r IH]; intro H; cbn; auto.
  destruct (startswith k "logjit") eqn:E; [apply starts_iff in E; destruct (H k); auto; now left|].
  apply IH. intros; apply H. now right.
Qed.

Lemma loop_skip pre keys h d : (forall k, In k pre -> ~ logjit_key k) -> logjit_loop (pre ++ keys) false h d = logjit_loop keys false h d.
Proof.
  induction pre as [|k r IH]; intro H; cbn; auto.
  destruct (startswith k "logjit") eqn:E; [apply starts_iff in E; destruct (H k); auto; now left|].
  apply IH. intros; apply H. now right.
Qed.

Lemma loop_last pre k h d : (forall k', In k' pre -> ~ logjit_key k') -> logjit_key k ->
  logjit_loop (pre ++ [k]) false h d = convert_logjit h d k.
Proof.
  intros H K. rewrite loop_skip by auto. cbn. apply starts_iff in K. rewrite K.
  destruct (convert_logjit h d k) as [[h1 d1]|]; reflexivity.
Qed.

Lemma convert_spec h d k p x : NoDup (dkeys d) -> (forall k l, dget d k = Some l -> (l < length h)%nat) -> ~ logjit_key (replace_logjit k) -> logjit_key k ->
  get_param h d k = Some p -> p_value p = Some x ->
  exists h' d', convert_logjit h d k = Ok (h', d') /\ NoDup (dkeys d') /\
    get_param h' d' (replace_logjit k) = Some (mkParam (Some (exp x)) (p_vary p) None false) /\
    ~ In k (dkeys d') /\
    (forall k', k' <> k -> k' <> replace_logjit k -> get_param h' d' k' = get_param h d k') /\
    (forall k', In k' (dkeys d') <-> k' <> k /\ (In k' (dkeys d) \/ k' = replace_logjit k)).
Proof.
  intros N A R K G V. unfold convert_logjit. rewrite G, V. unfold set_new. cbn [fst snd].
  set (q := mkParam _ _ _ _). set (k2 := replace_logjit k) in *. exists (h ++ [q])%list, (dremove (dset d k2 (length h)) k).
  assert (k2 <> k) as NE by (intro E; apply R; rewrite E; exact K).
  assert (NoDup (dkeys (dset d k2 (length h)))) as N2 by now apply wf_dset.
  split; [reflexivity|]. split; [now apply wf_dremove|]. split; [|split; [|split]].
  - unfold get_param. rewrite dget_dremove_other, dget_dset_same by auto. rewrite nth_error_app2, Nat.sub_diag by lia. reflexivity.
  - apply dget_none. now apply dget_dremove_same.
  - intros k' H1 H2. unfold get_param. rewrite dget_dremove_other, dget_dset_other by auto.
    destruct (dget d k') as [l|] eqn:E; auto. apply nth_error_app1. eauto.
  - intro k'. assert (forall z, In z (dkeys (dset d k2 (length h))) <-> In z (dkeys d) \/ z = k2) as Q.
    { intro z. rewrite dkeys_dset. destruct (dmem d k2) eqn:E.
      - apply dmem_in in E. split; [auto|]. intros [|E1]; [auto|]. now rewrite E1.
      - rewrite in_app_iff. cbn. split; intros [|]; auto. destruct H; [auto|contradiction]. }
    rewrite <- Q. destruct (String.eqb_spec k' k) as [E|NE'].
    + rewrite E. split; [|tauto]. intro H. exfalso. apply (dget_none (dremove (dset d k2 (length h)) k) k); auto. now apply dget_dremove_same.
    + assert (dget (dremove (dset d k2 (length h)) k) k' = dget (dset d k2 (length h)) k') as EQ by now apply dget_dremove_other.
      split.
      * intro H. split; auto. eapply dkeys_dremove_incl; eauto.
      * intros [_ H]. destruct (dget (dset d k2 (length h)) k') as [l|] eqn:E; [eapply dget_key; eauto|].
        apply dget_none in E. contradiction.
Qed.

Lemma loop_mid pre k k2 r h d p x : (forall k', In k' pre -> ~ logjit_key k') -> logjit_key k ->
  get_param h d k = Some p -> p_value p = Some x -> logjit_loop (pre ++ k :: k2 :: r) false h d = Err RuntimeError.
Proof.
  intros H K G V. rewrite loop_skip by auto. cbn. apply starts_iff in K. rewrite K. unfold convert_logjit. rewrite G, V. reflexivity.
Qed.

(** what a successful loop did *)
Lemma loop_ok keys : forall h d h' d', logjit_loop keys false h d = Ok (h', d') ->
  (forall k, In k keys -> ~ logjit_key k) /\ h' = h /\ d' = d \/
  exists pre k, keys = (pre ++ [k])%list /\ (forall k', In k' pre -> ~ logjit_key k') /\ logjit_key k /\ convert_logjit h d k = Ok (h', d').
Proof.
  induction keys as [|k r IH]; intros h d h' d' H.
  - cbn in H. inversion H; subst. left. split; [intros ? []|auto].
  - cbn in H. destruct (startswith k "logjit") eqn:E.
    + right. apply starts_iff in E. destruct (convert_logjit h d k) as [[h1 d1]|] eqn:C; [|discriminate]. cbn in H.
      destruct r; [|discriminate]. cbn in H. inversion H; subst. exists [], k. split; auto.
    + assert (~ logjit_key k) as NK by (rewrite <- starts_iff; congruence).
      destruct (IH _ _ _ _ H) as [(A & B & C)|(pre & k0 & A & B & C & D)].
      * left. split; auto. intros k' [<-|]; auto.
      * right. exists (k :: pre), k0. subst r. split; auto. split; auto. intros k' [<-|]; auto.
Qed.

(** ** sorted copies *)
Lemma pick_seq {A} (l : list A) : pick l (seq 0 (length l)) = l.
Proof.
  unfold pick. assert (forall n, flat_map (fun i => match nth_error l i with Some x => [x] | None => [] end) (seq n (length l - n)) = skipn n l) as H.
  { intro n. remember (length l - n)%nat as m eqn:Em. revert n Em. induction m as [|m IH]; intros n Em.
    - cbn. symmetry. apply skipn_all2. lia.
    - cbn [seq flat_map]. rewrite IH by lia. destruct (nth_error l n) as [a|] eqn:E.
      + cbn [app]. symmetry. clear - E. revert n E. induction l as [|z l IHl]; intros [|n] E; try discriminate; [cbn in *; congruence|].
        cbn [nth_error] in E. apply IHl in E. exact E.
      + apply nth_error_None in E. lia. }
  specialize (H 0%nat). rewrite Nat.sub_0_r in H. exact H.
Qed.

Lemma pick_combine {A B} (a : list A) (b : list B) o : length a = length b -> pick (combine a b) o = combine (pick a o) (pick b o).
Proof.
  intro L. induction o as [|i o IH]; [reflexivity|]. unfold pick in *. cbn [flat_map].
  assert (nth_error (combine a b) i = match nth_error a i, nth_error b i with Some x, Some y => Some (x, y) | _, _ => None end) as ->.
  { clear IH. revert b i L. induction a as [|x a IHa]; intros [|y b] i L; try discriminate; [now destruct i|]. destruct i; [reflexivity|]. cbn. apply IHa. auto. }
  destruct (nth_error a i) eqn:Ea, (nth_error b i) eqn:Eb; cbn [app combine]; try (now rewrite IH).
  - apply nth_error_None in Eb. assert (i < length a)%nat by (apply nth_error_Some; congruence). lia.
  - apply nth_error_None in Ea. assert (i < length b)%nat by (apply nth_error_Some; congruence). lia.
Qed.

Lemma pick_perm {A} (l : list A) o : Permutation o (seq 0 (length l)) -> Permutation (pick l o) l.
Proof. intro H. rewrite <- (pick_seq l) at 2. unfold pick. now apply Permutation_flat_map. Qed.

(** ** what the constructors do to the shared objects *)
Lemma extras_ext ks : forall h d idx n h' d' idx' n',
  fold_left add_extra ks (h, d, idx, n) = (h', d', idx', n') ->
  (exists t, h' = (h ++ t)%list) /\ (forall k l, dget d k = Some l -> dget d' k = Some l) /\
  (forall k, In k (dkeys d') -> In k (dkeys d) \/ In k ks) /\
  ((forall k, In k ks -> In k (dkeys d)) -> h' = h /\ d' = d) /\
  ((forall k, In k ks -> In k (dkeys idx)) -> idx' = idx).
Proof.
  induction ks as [|k ks IH]; intros h d idx n h' d' idx' n' E.
  - cbn in E. inversion E; subst. repeat split; auto. exists []. now rewrite app_nil_r.
  - cbn [fold_left] in E. destruct (add_extra (h, d, idx, n) k) as [[[h1 d1] idx1] n1] eqn:E1.
    destruct (IH _ _ _ _ _ _ _ _ E) as ([t A] & B & C & D & F). unfold add_extra in E1.
    assert ((dmem d k = true /\ h1 = h /\ d1 = d) \/ (dmem d k = false /\ (exists q, h1 = (h ++ [q])%list) /\ d1 = dset d k (length h))) as Ed.
    { destruct (dmem d k); unfold set_new in E1; cbn [fst snd] in E1; destruct (dmem idx k); inversion E1; subst; eauto 7. }
    assert (idx1 = if dmem idx k then idx else dset idx k n) as Ei.
    { destruct (dmem d k); unfold set_new in E1; cbn [fst snd] in E1; destruct (dmem idx k); congruence. }
    clear E1. split; [|split; [|split; [|split]]].
    + destruct Ed as [(_ & -> & _)|(_ & [q ->] & _)]; [eauto|]. exists ([q] ++ t)%list. now rewrite A, <- app_assoc.
    + intros k' l Hl. apply B. destruct Ed as [(_ & _ & ->)|(M & _ & ->)]; auto.
      destruct (String.eqb_spec k' k) as [->|N]; [unfold dmem in M; rewrite Hl in M; discriminate|]. now rewrite dget_dset_other.
    + intros k' Hk. apply C in Hk. destruct Hk as [Hk|Hk]; [|right; now right].
      destruct Ed as [(_ & _ & ->)|(M & _ & ->)]; auto. rewrite dkeys_dset, M in Hk. apply in_app_or in Hk.
      destruct Hk as [Hk|[<-|[]]]; [now left|right; now left].
    + intro H. destruct Ed as [(_ & -> & ->)|(M & _)].
      * apply D. intros; apply H; now right.
      * assert (dmem d k = true) by (apply dmem_in, H; now left). congruence.
    + intro H. assert (dmem idx k = true) as M by (apply dmem_in, H; now left). rewrite M in Ei. subst idx1.
      apply F. intros; apply H; now right.
Qed.

Lemma strip_us_cons s : strip_us ("_" ++ s) = s.
Proof. reflexivity. Qed.

Lemma rvlike_ext h ps vec t y e inst dv vecs h1 ps1 vec1 l :
  rvlike_init h ps vec t y e ("_" ++ inst) dv vecs = Ok (h1, ps1, vec1, l) ->
  (exists x, h1 = (h ++ x)%list) /\ (forall k i, dget (ps_items ps) k = Some i -> dget (ps_items ps1) k = Some i) /\
  (forall k, In k (dkeys (ps_items ps1)) -> In k (dkeys (ps_items ps)) \/ k = "gamma_" ++ inst \/ k = "jit_" ++ inst \/ exists v, In v dv /\ k = "c1_" ++ v ++ "_" ++ inst) /\
  l_x l = t /\ l_y l = y /\ l_yerr l = e /\ l_gamma l = "gamma_" ++ inst /\ l_jit l = "jit_" ++ inst /\ l_suffix l = inst /\
  l_decorr l = map (fun v => "c1_" ++ v ++ "_" ++ inst) dv /\ l_telvec l = map (fun _ => inst) t.
Proof.
  intro E. unfold rvlike_init, likelihood_init in E.
  destruct (fold_left add_extra _ _) as [[[h2 d2] idx2] n2] eqn:EF.
  destruct (extras_ext _ _ _ _ _ _ _ _ _ EF) as (A & B & C & _).
  destruct (dict_to_vector h2 d2 idx2) as [v|] eqn:EV; [|discriminate]. cbn [bind] in E.
  destruct (vector_names d2 idx2) as [nm|]; [|discriminate]. cbn [bind v_indices] in E.
  destruct (dget_res _ _) as [gi|]; [|discriminate]. cbn [bind] in E.
  destruct (dget_res _ _) as [ji|]; [|discriminate]. cbn [bind] in E. inversion E; subst.
  cbn [ps_items l_x l_y l_yerr l_gamma l_jit l_suffix l_decorr l_telvec]. split; auto. split; auto. split; [|auto 10].
  intros k Hk. apply C in Hk. destruct Hk as [|[<-|[<-|Hk]]]; auto.
  apply in_map_iff in Hk. destruct Hk as (z & <- & Hz). right. right. right. eauto.
Qed.

(** a likelihood made of the given rows *)
Record made (inst : string) (rows : list obs) (ty : liketype) (l : rvlike) : Prop := {
  md_data : Permutation (measured l) (triples rows);
  md_exact : (forall hn, ty <> CeleriteLike hn) -> l_x l = map o_time rows /\ l_y l = map o_vel rows /\ l_yerr l = map o_err rows;
  md_x : length (l_x l) = length rows; md_y : length (l_y l) = length rows; md_err : length (l_yerr l) = length rows;
  md_gamma : l_gamma l = "gamma_" ++ inst; md_jit : l_jit l = "jit_" ++ inst; md_suffix : l_suffix l = inst;
  md_tel : l_telvec l = map (fun _ => inst) rows }.

Lemma measured_rows rows l : l_x l = map o_time rows -> l_y l = map o_vel rows -> l_yerr l = map o_err rows -> measured l = triples rows.
Proof. unfold measured, triples. intros -> -> ->. induction rows as [|o r IH]; cbn; congruence. Qed.

Section Thm.
  Variable argsort : list R -> list nat.
  Hypothesis argsort_perm : forall x, Permutation (argsort x) (seq 0 (length x)).

  Lemma make_like_ext ty h ps vec rows inst vars vecs h1 ps1 vec1 l :
    make_like argsort ty h ps vec rows inst vars vecs = Ok (h1, ps1, vec1, l) ->
    (exists x, h1 = (h ++ x)%list) /\ (forall k i, dget (ps_items ps) k = Some i -> dget (ps_items ps1) k = Some i) /\
    (forall k, In k (dkeys (ps_items ps1)) -> In k (dkeys (ps_items ps)) \/ k = "gamma_" ++ inst \/ k = "jit_" ++ inst \/
       exists v, ty = RVLike /\ In v vars /\ k = "c1_" ++ v ++ "_" ++ inst) /\
    made inst rows ty l /\ l_decorr l = match ty with RVLike => map (fun v => "c1_" ++ v ++ "_" ++ inst) vars | _ => [] end.
  Proof.
    intro E. unfold make_like in E.
    assert (exists dv vc l0, rvlike_init h ps vec (map o_time rows) (map o_vel rows) (map o_err rows) ("_" ++ inst) dv vc = Ok (h1, ps1, vec1, l0) /\
       gp_finish argsort ty h1 ps1 l0 = Ok l /\ dv = match ty with RVLike => vars | _ => [] end) as (dv & vc & l0 & E0 & EF & ED).
    { destruct ty as [|kn hn|hn].
      - exists vars, vecs, l. auto.
      - destruct (rvlike_init _ _ _ _ _ _ _ _ _) as [[[[h2 ps2] vec2] l0]|] eqn:E0; [|discriminate]. cbn [bind] in E.
        destruct (gp_finish argsort _ h2 ps2 l0) as [l1|] eqn:EF; [|discriminate]. cbn [bind] in E. inversion E; subst. eauto 7.
      - destruct (rvlike_init _ _ _ _ _ _ _ _ _) as [[[[h2 ps2] vec2] l0]|] eqn:E0; [|discriminate]. cbn [bind] in E.
        destruct (gp_finish argsort _ h2 ps2 l0) as [l1|] eqn:EF; [|discriminate]. cbn [bind] in E. inversion E; subst. eauto 7. }
    destruct (rvlike_ext _ _ _ _ _ _ _ _ _ _ _ _ _ E0) as (A & B & C & X & Y & Z & G & J & S & D & T).
    split; auto. split; auto. split.
    { intros k Hk. apply C in Hk. destruct Hk as [|[|[|(v & Hv & Ek)]]]; auto. right. right. right. exists v. subst dv. destruct ty; try destruct Hv; auto. }
    assert (l = l0 /\ (forall hn, ty <> CeleriteLike hn) \/ exists hn, ty = CeleriteLike hn /\ l = sorted_like l0 (argsort (l_x l0))) as [[-> NC]|(hn & ET & EL)].
    { destruct ty as [|kn hn|hn]; cbn [gp_finish] in EF.
      - left. split; [congruence|discriminate].
      - destruct (kernel_of kn); [|discriminate]. unfold gp_init in EF. destruct (map_res _ _); [|discriminate]. cbn [bind] in EF.
        destruct (kernel_init _ _); [|discriminate]. cbn in EF. left. split; [congruence|discriminate].
      - destruct (map_res _ _); [|discriminate]. cbn [bind] in EF. destruct (celerite_kernel_init hn); [|discriminate]. cbn [bind] in EF.
        right. exists hn. split; congruence. }
    - split; [|rewrite D; subst dv; now destruct ty].
      split; rewrite ?X, ?Y, ?Z, ?map_length; auto.
      + now rewrite (measured_rows rows).
      + now rewrite T, map_map.
    - subst l. split; [|cbn; rewrite D; subst dv ty; reflexivity].
      assert (length (l_x l0) = length rows /\ length (l_y l0) = length rows /\ length (l_yerr l0) = length rows) as (LX & LY & LZ)
        by (now rewrite X, Y, Z, !map_length).
      pose proof (argsort_perm (l_x l0)) as P. rewrite LX in P.
      split; cbn; auto.
      + unfold measured. cbn. rewrite <- !pick_combine by (rewrite ?combine_length; lia).
        rewrite <- (measured_rows rows l0) by auto. unfold measured. apply pick_perm. rewrite !combine_length, LX, LY, LZ, !Nat.min_id. exact P.
      + intro N. now destruct (N hn).
      + rewrite (Permutation_length (pick_perm (l_x l0) _ ltac:(rewrite LX; exact P))). exact LX.
      + rewrite (Permutation_length (pick_perm (l_y l0) _ ltac:(rewrite LY; exact P))). exact LY.
      + rewrite (Permutation_length (pick_perm (l_yerr l0) _ ltac:(rewrite LZ; exact P))). exact LZ.
      + now rewrite T, map_map.
  Qed.
End Thm.
