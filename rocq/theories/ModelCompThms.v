(** C40, C59: theorems about model_comp. *)
From Coq Require Import Reals String Ascii Arith Bool Lia Classical_Prop Sorted Permutation List.
From Verif Require Import Py PyFloat PyFacts Params ParamsProofs ParamsSpec VectorProofs Basis BasisExtra Likelihood LikeProofs PostProofs ModelComp ModelCompSpec ModelCompProofs.
Import ListNotations.
Open Scope string_scope.
#[local] Arguments key : simpl never.

(** ** running the fits *)
Lemma run_ok {stats} (fit : pst -> pst * res stats) ms sts : Forall2 (fun m st => snd (fit m) = Ok st) ms sts ->
  forall l, run_fits stats fit ms l = ((l ++ sts)%list, Ok tt).
Proof.
  intro F. induction F as [|m st ms sts E F IH]; intro l; cbn [run_fits].
  - now rewrite app_nil_r.
  - rewrite E, IH, <- app_assoc. reflexivity.
Qed.
Lemma run_err {stats} (fit : pst -> pst * res stats) a m b sts e : Forall2 (fun m st => snd (fit m) = Ok st) a sts -> snd (fit m) = Err e ->
  forall l, run_fits stats fit (a ++ m :: b)%list l = ((l ++ sts)%list, Err e).
Proof. intros F E l. rewrite run_fits_app, (run_ok fit a sts F). cbn [run_fits]. now rewrite E. Qed.

Section Thms.
  Variables (stats : Type) (env : menv) (fit : pst -> pst * res stats) (ep cp : list string) (n : nat).
  Hypothesis EO : env_ok env ep cp n.

  Lemma model_comp_models params s : incl params ["e"; "nplanets"; "trend"; "jit"] -> length (m_rows s) = n -> m_cp s <> None ->
    exists ms, models env ep cp params s ms /\
      (forall l sts, Forall2 (fun m st => snd (fit m) = Ok st) ms sts ->
         model_comp stats env fit params s l = (match params with [] => fst (fit s) | _ => s end, (l ++ sts)%list, Ok tt)) /\
      (forall l a m b sts e, ms = (a ++ m :: b)%list -> Forall2 (fun m st => snd (fit m) = Ok st) a sts -> snd (fit m) = Err e ->
         model_comp stats env fit params s l = (match params with [] => fst (fit s) | _ => s end, (l ++ sts)%list, Err e)).
  Proof.
    intros I L P. destruct (mc_main stats env fit ep cp n EO (length params) params s (le_n _) I (conj L P)) as (ms & M & F).
    exists ms. split; auto. split.
    - intros l sts H. unfold model_comp. rewrite F, (run_ok fit ms sts H). reflexivity.
    - intros l a m b sts e -> H E. unfold model_comp. rewrite F, (run_err fit a m b sts e H E). reflexivity.
  Qed.

  Lemma models_nil s ms : models env ep cp [] s ms -> ms = [s].
  Proof. intro H. inversion H as [|params x s0 cs mss HF]; auto. destruct HF as [[] _]. Qed.
  Lemma models_nils cs mss : Forall2 (models env ep cp []) cs mss -> concat mss = cs.
  Proof. intro F. induction F as [|c ms cs mss H F IH]; cbn; auto. apply models_nil in H. subst ms. cbn. now rewrite IH. Qed.
  Lemma models_single x s ms : models env ep cp [x] s ms -> stage env ep cp s x ms.
  Proof.
    intro H. inversion H as [|params y s0 cs mss HI S F]; subst. destruct HI as [[<-|[]] _].
    cbn in F. destruct (string_dec x x); [|easy]. apply models_nils in F. now rewrite F.
  Qed.

  (** one kind of comparison *)
  Lemma model_comp_single x s : In x ["e"; "nplanets"; "trend"; "jit"] -> length (m_rows s) = n -> m_cp s <> None ->
    exists cs, stage env ep cp s x cs /\
      (forall l sts, Forall2 (fun m st => snd (fit m) = Ok st) cs sts -> model_comp stats env fit [x] s l = (s, (l ++ sts)%list, Ok tt)) /\
      (forall l a m b sts e, cs = (a ++ m :: b)%list -> Forall2 (fun m st => snd (fit m) = Ok st) a sts -> snd (fit m) = Err e ->
         model_comp stats env fit [x] s l = (s, (l ++ sts)%list, Err e)).
  Proof.
    intros Hx L P. destruct (model_comp_models [x] s) as (ms & M & A & B); auto.
    { intros y [<-|[]]. exact Hx. }
    exists ms. split; [now apply models_single|]. split; auto.
  Qed.

  (** earlier calls only lengthen the list *)
  Lemma model_comp_history params s l l1 r : incl params ["e"; "nplanets"; "trend"; "jit"] -> length (m_rows s) = n -> m_cp s <> None ->
    model_comp stats env fit params s [] = (r, l1, Ok tt) -> model_comp stats env fit params s l = (r, (l ++ l1)%list, Ok tt).
  Proof.
    intros I L P E. destruct (mc_main stats env fit ep cp n EO (length params) params s (le_n _) I (conj L P)) as (ms & M & F).
    unfold model_comp in *. rewrite F in *.
    assert (forall l0, fst (run_fits stats fit ms l0) = (l0 ++ fst (run_fits stats fit ms []))%list /\ snd (run_fits stats fit ms l0) = snd (run_fits stats fit ms [])) as Q.
    { clear. induction ms as [|m ms IH]; intro l0; cbn [run_fits]; [now rewrite app_nil_r|]. destruct (snd (fit m)) as [st|e]; cbn [fst snd].
      - destruct (IH (l0 ++ [st])%list) as [A B]. destruct (IH ([] ++ [st])%list) as [C D]. rewrite A, B, C, D. split; auto. cbn. now rewrite <- app_assoc.
      - split; auto. now rewrite app_nil_r. }
    destruct (Q l) as [A B]. rewrite A, B. inversion E as [[E1 E2 E3]]. rewrite E3. reflexivity.
  Qed.

  (** no comparison asked: the posterior passed is fitted in place *)
  Lemma model_comp_nil s l : fst (fst (model_comp stats env fit [] s l)) = fst (fit s).
  Proof. unfold model_comp. cbn. unfold mc_base. now destruct (fit s) as [s' [st|e]]. Qed.
End Thms.

(** ** number of models *)
Lemma free_sets_count env names s Gs F : free_sets env names s Gs -> NoDup F ->
  (forall m, In m F <-> (1 <= m <= e_num env)%nat /\ exists p, In p names /\ free_key env s (key p m)) ->
  length Gs = (2 ^ length F - 1)%nat.
Proof.
  intros [N H] NF HF.
  set (F' := filter (fun m => if in_dec Nat.eq_dec m F then true else false) (seq 1 (e_num env))).
  assert (forall m, In m F' <-> In m F) as HF'.
  { intro m. unfold F'. rewrite filter_In, in_seq. destruct (in_dec Nat.eq_dec m F) as [Hm|Hm]; [|intuition discriminate].
    split; [tauto|]. intros _. split; auto. apply HF in Hm. lia. }
  assert (StronglySorted lt F') as SF.
  { unfold F'. generalize (seq_sorted (e_num env) 1). generalize (seq 1 (e_num env)). intros l S. induction S as [|a l S IH HA]; cbn; [constructor|].
    destruct (in_dec Nat.eq_dec a F); auto. constructor; auto. apply Forall_forall. intros x Hx. apply filter_In in Hx. eapply Forall_forall in HA; [exact HA|tauto]. }
  assert (length F = length F') as ->.
  { apply Permutation_length. apply NoDup_Permutation; auto; [now apply sorted_nodup|]. intro m. symmetry. apply HF'. }
  set (C := flat_map (fun p => combinations p F') (seq 1 (length F'))).
  assert (forall G, In G C <-> G <> [] /\ StronglySorted lt G /\ incl G F') as HC.
  { intro G. unfold C. rewrite in_flat_map. split.
    - intros (p & Hp & HG). apply in_seq in Hp. apply (combinations_spec p F' SF) in HG. destruct HG as (D & A & B). split; [|auto]. intros ->. cbn in D. lia.
    - intros (A & B & D). exists (length G). assert (length G <> 0%nat) by (destruct G; [easy|discriminate]).
      assert (length G <= length F')%nat by (apply NoDup_incl_length; [now apply sorted_nodup|auto]).
      split; [apply in_seq; lia|]. apply (combinations_spec _ F' SF). auto. }
  assert (NoDup C) as NC.
  { unfold C. generalize 1%nat. generalize (length F'). induction n as [|k IH]; intro a; cbn [seq flat_map]; [constructor|].
    apply nodup_app; [now apply combinations_nodup|apply IH|]. intros G H1 H2. apply (combinations_spec a F' SF) in H1. apply in_flat_map in H2.
    destruct H2 as (p & Hp & H2). apply in_seq in Hp. apply (combinations_spec p F' SF) in H2. destruct H1 as (H1 & _), H2 as (H2 & _). lia. }
  assert (length Gs = length C) as ->.
  { apply Permutation_length. apply NoDup_Permutation; auto. intro G. rewrite H, HC. unfold planet_set, set_free. split.
    - intros ((A & B & D) & E). split; [|split]; auto. intros m Hm. apply HF', HF. split; auto.
    - intros (A & B & D). split; [split; [|split]; auto|]; intros m Hm; apply D, HF', HF in Hm; tauto. }
  pose proof (sum_all F' (length F') (le_n _)) as S. cbn [seq flat_map] in S. rewrite combinations_0, app_length in S. cbn [length] in S. unfold C. lia.
Qed.

(** ** posteriors made by the constructors *)
Lemma env_of_vector h ps b names vec hn : layout (ps_num ps) b names (dkeys (ps_items ps)) -> vector_init h ps = Ok vec ->
  exists ep cp, basis_names b ep cp /\ env_ok (mkEnv (v_indices vec) (v_names vec) b (ps_num ps) hn) ep cp (length (v_vector vec)).
Proof.
  intros L V. unfold vector_init in V. set (idx := init_index_dict _ _) in V.
  destruct (dict_to_vector h (ps_items ps) idx) as [v|] eqn:EV; [|discriminate]. cbn [bind] in V.
  destruct (names_ok _ _ _ _ L) as (nm & EN & LN & K & ND & NC). fold idx in EN, K. rewrite EN in V. cbn [bind] in V. inversion V; subst vec; clear V.
  cbn [v_indices v_names v_vector].
  destruct (eparams_spec _ _ (l_fit _ _ _ _ L)) as (ep & cp & E1 & E2 & BN & N5 & I5).
  assert (forall p, In p (ep ++ cp)%list <-> In p names) as PN.
  { destruct (bn_fit _ _ _ BN) as (names' & H1 & H2). intro p. rewrite <- H2.
    assert (names' = names) as ->; [|tauto]. pose proof (l_fit _ _ _ _ L) as H3. clear - H1 H3. cbn [FIT_BASES In] in H1, H3.
    decompose [or] H1; try contradiction; match goal with E : (_, _) = (b, names') |- _ => injection E as <- <- end;
    decompose [or] H3; try contradiction; match goal with E : (_, _) = _ |- _ => now inversion E end. }
  assert (forall k i, dget idx k = Some i -> (i < length v)%nat) as RG by (intros k i; apply (slots_in_range _ _ _ _ _ _ _ _ L EV)).
  (* each name is the key of its position *)
  assert (forall k i, nth_error nm i = Some k -> dget idx k = Some i /\ (In k (dkeys (ps_items ps)) \/ k = "dvdt" \/ k = "curv")) as POS.
  { intros k i Hk. assert (i < length nm)%nat as Hi by (apply nth_error_Some; congruence). rewrite LN in Hi.
    destruct (Nat.eq_dec i (5 * ps_num ps)) as [->|D1]. { rewrite ND in Hk. inversion Hk; subst. split; auto. apply index_dvdt. }
    destruct (Nat.eq_dec i (5 * ps_num ps + 1)) as [->|D2]. { rewrite NC in Hk. inversion Hk; subst. split; auto. unfold idx. rewrite index_curv. f_equal. lia. }
    destruct (slot_taken _ _ _ _ i L Hi D1 D2) as (k' & Hk' & Ek'). rewrite (K _ _ Hk' Ek') in Hk. inversion Hk; subst. auto. }
  assert (forall k i, In k nm \/ planet_key (ep ++ cp) (seq 1 (ps_num ps)) k \/ In k ["curv"; "dvdt"] -> dget idx k = Some i -> nth_error nm i = Some k) as POS'.
  { intros k i [H|[(m & p & Hm & Hp & ->)|H]] E.
    - apply In_nth_error in H. destruct H as [j Hj]. pose proof (POS _ _ Hj) as [E' _]. congruence.
    - apply in_seq in Hm. apply K; auto. apply (l_has _ _ _ _ L); [lia|now apply PN].
    - destruct H as [<-|[<-|[]]].
      + unfold idx in E. rewrite index_curv in E. assert (i = 5 * ps_num ps + 1)%nat as -> by (inversion E; lia). exact NC.
      + unfold idx in E. rewrite index_dvdt in E. inversion E; subst. exact ND. }
  exists ep, cp. split; auto. split; cbn [e_idx e_names e_basis e_num]; auto.
  - intros m p Hm Hp. destruct (slot_positions _ _ _ _ L) as (SP & _). apply PN in Hp. apply In_nth_error in Hp. destruct Hp as [j Hj].
    specialize (SP m j p Hm Hj). fold idx in SP. eauto.
  - intros k [<-|[<-|[]]]; [exists (1 + 5 * ps_num ps)%nat|exists (5 * ps_num ps)%nat]; (assert (H : forall i k, dget idx k = Some i -> dget idx k = Some i /\ (i < length v)%nat) by eauto); apply H;
      [apply index_curv|apply index_dvdt].
  - intros k Hk _. apply In_nth_error in Hk. destruct Hk as [i Hi]. apply POS in Hi. destruct Hi as [Hi _]. eauto.
  - apply NoDup_nth_error. intros i j Hi E. destruct (nth_error nm i) as [k|] eqn:Ek; [|apply nth_error_None in Ek; lia].
    apply POS in Ek. symmetry in E. apply POS in E. destruct Ek as [Ek _], E as [E _]. congruence.
  - intros k k' i H H' E E'. pose proof (POS' _ _ H E) as A. pose proof (POS' _ _ H' E') as B. congruence.
Qed.

(** ** Gaussian processes (C59) *)
Section GP.
  Variables (stats : Type) (env : menv) (fit : pst -> pst * res stats) (ep cp : list string) (n : nat).
  Hypothesis EO : env_ok env ep cp n.

  (** what is fitted as "without GP": hyperparameters set to zero, nothing fixed *)
  Definition gp_zeroed (hn : list string) (s c : pst) : Prop :=
    changed env (fun k => In k hn) (fun k r => if String.prefix "gp_amp" k || m_vary r then mkM (Fin 0) (m_vary r) else r) s c /\
    m_cp c = m_cp s /\ m_cl c = m_cl s.

  Lemma flags_kept hn s c : gp_zeroed hn s c -> (forall i, free_row c i <-> free_row s i).
  Proof.
    intros [(L & A & B) _] i.
    assert (exists f : mrow -> mrow, (forall r, m_vary (f r) = m_vary r) /\ nth_error (m_rows c) i = option_map f (nth_error (m_rows s) i)) as (f & F & E).
    { destruct (nth_error (m_rows s) i) as [r|] eqn:Er.
      - destruct (classic (exists k, In k hn /\ dget (e_idx env) k = Some i)) as [(k & Hk & Ek)|N].
        + exists (fun r => if String.prefix "gp_amp" k || m_vary r then mkM (Fin 0) (m_vary r) else r).
          split; [intro r'; now destruct (String.prefix "gp_amp" k || m_vary r')|]. cbn. eapply A; eauto.
        + exists (fun r => r). split; auto. rewrite B, Er; auto. intros k Hk Ek. apply N. eauto.
      - exists (fun r => r). split; auto. apply nth_error_None. rewrite L. now apply nth_error_None. }
    unfold free_row. rewrite E. destruct (nth_error (m_rows s) i) as [r|]; cbn; [|split; intros (r & H & _); discriminate].
    split; intros (r' & H & V); inversion H; subst; eexists; (split; [reflexivity|]); rewrite ?F in *; auto.
  Qed.

  Lemma gp_step_sets k : sets_row env (fun r => if String.prefix "gp_amp" k || m_vary r then mkM (Fin 0) (m_vary r) else r) (fun c => gp_step env c k) k.
  Proof.
    intros c i r Ei Er. unfold gp_step, startswith.
    assert (exists c1, (if String.prefix "gp_amp" k then put_val env (Fin 0) c k else Ok c) = Ok c1 /\
      c1 = mkPst (list_upd (m_rows c) i (if String.prefix "gp_amp" k then mkM (Fin 0) (m_vary r) else r)) (m_cp c) (m_cl c)) as (c1 & E1 & Ec1).
    { destruct (String.prefix "gp_amp" k).
      - rewrite (put_val_sets env (Fin 0) k c i r Ei Er). eauto.
      - rewrite (ok_sets env k c i r Ei Er). eauto. }
    rewrite E1. cbn [bind].
    assert (nth_error (m_rows c1) i = Some (if String.prefix "gp_amp" k then mkM (Fin 0) (m_vary r) else r)) as Er1.
    { rewrite Ec1. cbn [m_rows]. apply nth_upd_same, nth_error_Some. congruence. }
    unfold flag. rewrite (row_at_ok _ _ _ _ _ Ei Er1). cbn [bind snd].
    assert (m_vary (if String.prefix "gp_amp" k then mkM (Fin 0) (m_vary r) else r) = m_vary r) as -> by now destruct (String.prefix "gp_amp" k).
    destruct (m_vary r) eqn:V.
    - rewrite (put_val_sets env (Fin 0) k c1 i _ Ei Er1). subst c1. cbn [m_rows m_cp m_cl]. rewrite list_upd_twice, orb_true_r.
      destruct (String.prefix "gp_amp" k); cbn [m_vary]; rewrite ?V; reflexivity.
    - rewrite orb_false_r. now subst c1.
  Qed.

  Lemma gp_models hn rest s : e_hnames env = Some hn -> NoDup hn -> (exists k, In k (e_names env) /\ substr_in "gp_amp" k = true) ->
    (forall k, In k hn -> exists i, dget (e_idx env) k = Some i /\ (i < n)%nat) ->
    (forall k k' i, In k hn -> In k' hn -> dget (e_idx env) k = Some i -> dget (e_idx env) k' = Some i -> k = k') ->
    incl rest ["e"; "nplanets"; "trend"; "jit"] -> length (m_rows s) = n -> m_cp s <> None ->
    exists c ms1 ms2, gp_zeroed hn s c /\ models env ep cp rest c ms1 /\ models env ep cp rest (relist s) ms2 /\
      forall l sts, Forall2 (fun m st => snd (fit m) = Ok st) (ms1 ++ ms2) sts ->
        model_comp stats env fit ("gp" :: rest) s l =
          (match rest with [] => fst (fit (relist s)) | _ => relist s end, (l ++ sts)%list, Ok tt).
  Proof.
    intros EH NH (ka & Hka & Hsub) IX IJ I L P.
    destruct (loop_changed env (fun k r => if String.prefix "gp_amp" k || m_vary r then mkM (Fin 0) (m_vary r) else r) (gp_step env) hn s) as (c & Ec & CH & P1 & P2); auto.
    { intros k _. apply gp_step_sets. }
    { intros k Hk. rewrite L. auto. }
    assert (length (m_rows c) = n) as Lc by (rewrite <- L; apply CH).
    assert (without "gp" rest = rest) as WO.
    { unfold without. induction rest as [|p r IH]; cbn; auto. destruct (String.eqb_spec p "gp") as [->|N]; cbn.
      - specialize (I "gp" (or_introl eq_refl)). cbn in I. intuition discriminate.
      - rewrite IH; auto. intros y Hy. apply I. now right. }
    destruct (mc_main stats env fit ep cp n EO (length rest) rest c (le_n _) I) as (ms1 & M1 & F1). { split; auto. now rewrite P1. }
    destruct (mc_main stats env fit ep cp n EO (length rest) rest (relist s) (le_n _) I) as (ms2 & M2 & F2). { now apply okst_relist. }
    exists c, ms1, ms2. split; [split; auto|]. split; auto. split; auto.
    intros l sts H. apply Forall2_app_inv_l in H. destruct H as (s1 & s2 & H1 & H2 & ->).
    unfold model_comp. cbn [length mc].
    assert (forallb (fun p => str_in p valid_mc_args) ("gp" :: rest) = true) as ->.
    { apply forallb_forall. intros x [<-|Hx]; [reflexivity|]. apply str_in_spec. apply I in Hx. cbn in Hx |- *. tauto. }
    cbn [negb]. assert (str_in "gp" ("gp" :: rest) = true) as -> by reflexivity.
    assert (without "gp" ("gp" :: rest) = rest) as -> by (cbn; exact WO).
    unfold mc_gp. assert (existsb (substr_in "gp_amp") (e_names env) = true) as -> by (apply existsb_exists; eauto).
    rewrite EH, Ec. unfold on_copy. rewrite F1, (run_ok fit ms1 s1 H1). cbn [fst snd]. rewrite F2, (run_ok fit ms2 s2 H2). cbn [fst snd].
    now rewrite app_assoc.
  Qed.
End GP.

(** the model fitted as "without GP" keeps every free hyperparameter free *)
Lemma gp_refuted : exists (env : menv) (fit : pst -> pst * res (list bool)) (s : pst),
  (forall m, fit m = (m, Ok (map m_vary (m_rows m)))) /\ e_hnames env = Some ["gp_amp"; "gp_per"] /\
  fresh s /\ free_key env s "gp_amp" /\ free_key env s "gp_per" /\
  model_comp (list bool) env fit ["gp"] s [] = (s, [[true; true]; [true; true]], Ok tt).
Proof.
  set (env := mkEnv [("gp_amp", 0%nat); ("gp_per", 1%nat)] ["gp_amp"; "gp_per"] "per tp e w k" 0 (Some ["gp_amp"; "gp_per"])).
  set (s := relist (mkPst [mkM (Fin 1) true; mkM (Fin 2) true] None None)).
  exists env, (fun m => (m, Ok (map m_vary (m_rows m)))), s. split; auto. split; auto. split; [apply relist_fresh|].
  split; [exists 0%nat; split; [reflexivity|eexists; split; reflexivity]|]. split; [exists 1%nat; split; [reflexivity|eexists; split; reflexivity]|]. reflexivity.
Qed.

(** the caller's posterior is left at the fitted values *)
Lemma in_place_refuted : exists (env : menv) (fit : pst -> pst * res nat) (s : pst),
  (forall m, snd (fit m) = Ok 7%nat) /\ fresh s /\ free_row s 0 /\
  m_rows s = [mkM (Fin 0) true] /\
  (forall p, In p [[]; ["gp"]] -> m_rows (fst (fst (model_comp nat env fit p s []))) = [mkM (Fin 1) true]).
Proof.
  set (s := relist (mkPst [mkM (Fin 0) true] None None)).
  exists (mkEnv [] [] "per tp e w k" 0 None), (fun m => (mkPst (map (fun r => mkM (Fin 1) (m_vary r)) (m_rows m)) (m_cp m) (m_cl m), Ok 7%nat)), s.
  split; auto. split; [apply relist_fresh|]. split; [eexists; split; reflexivity|]. split; auto.
  intros p [<-|[<-|[]]]; reflexivity.
Qed.

(** without mc_list, results of earlier calls are returned again *)
Lemma default_refuted : exists (env : menv) (fit : pst -> pst * res nat) (s : pst),
  fresh s /\ fit s = (s, Ok 7%nat) /\
  default_calls nat env fit [([], s); ([], s)] [] = ([Ok [7%nat]; Ok [7%nat; 7%nat]], [7%nat; 7%nat]).
Proof.
  set (s := relist (mkPst [mkM (Fin 0) true] None None)).
  exists (mkEnv [] [] "per tp e w k" 0 None), (fun m => (m, Ok 7%nat)), s. split; [apply relist_fresh|]. split; reflexivity.
Qed.
