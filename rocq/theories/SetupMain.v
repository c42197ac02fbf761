(** C55: the theorems about initialize_posterior. *)
From Coq Require Import Reals String Ascii Arith Bool Lia Permutation List.
From Verif Require Import Py PyFloat PyFacts Params ParamsProofs ParamsSpec VectorProofs Basis BasisProofs RVModel Likelihood LikeBuild LikeMore ExLike Gp Setup SetupSpec SetupProofs SetupThms VConv.
Import ListNotations.
Open Scope string_scope.

Lemma concat_combine {A B C} (f : C -> list A) (g : C -> list B) l : (forall c, In c l -> length (f c) = length (g c)) ->
  combine (concat (map f l)) (concat (map g l)) = concat (map (fun c => combine (f c) (g c)) l).
Proof.
  induction l as [|c l IH]; intro H; cbn; auto. rewrite <- IH by (intros; apply H; now right).
  specialize (H c (or_introl eq_refl)). revert H. generalize (f c) (g c). intros a b. revert b.
  induction a as [|x a IHa]; intros [|y b] L; try discriminate; auto. cbn. f_equal. apply IHa. auto.
Qed.

Lemma pairs_of_triples (x y e : list R) : length x = length y -> length e = length x ->
  combine x e = map (fun t => (fst (fst t), snd t)) (combine (combine x y) e).
Proof. revert y e. induction x as [|a x IH]; intros [|b y] [|c e] H1 H2; try discriminate; auto. cbn. f_equal. apply IH; auto. Qed.

Definition listed (nms : list string) (o : obs) : bool := existsb (String.eqb (o_tel o)) nms.

Lemma rows_partition data nms : NoDup nms -> Permutation (concat (map (rows_for data) nms)) (filter (listed nms) data).
Proof.
  induction nms as [|nm nms IH]; intro ND; cbn [map concat].
  - assert (filter (listed []) data = []) as -> by (induction data; auto). constructor.
  - inversion ND; subst. rewrite IH by auto. clear - H1.
    induction data as [|o data IH]; [constructor|]. unfold rows_for in *. cbn [filter].
    assert (listed (nm :: nms) o = String.eqb (o_tel o) nm || listed nms o) as -> by reflexivity.
    destruct (String.eqb_spec (o_tel o) nm) as [E|N]; cbn [orb].
    + assert (listed nms o = false) as ->.
      { unfold listed. destruct (existsb _ nms) eqn:EX; auto. apply existsb_exists in EX. destruct EX as (z & Hz & Ez).
        apply String.eqb_eq in Ez. congruence. }
      cbn [app]. apply perm_skip. exact IH.
    + destruct (listed nms o); [|exact IH]. rewrite <- Permutation_middle. apply perm_skip. exact IH.
Qed.

Lemma concat_perm {A B} (f g : A -> list B) l : (forall a, In a l -> Permutation (f a) (g a)) ->
  Permutation (concat (map f l)) (concat (map g l)).
Proof. induction l as [|a l IH]; intro H; cbn; auto. apply Permutation_app; [apply H; now left|apply IH; intros; apply H; now right]. Qed.

Section Thm.
  Variable argsort : list R -> list nat.
  Hypothesis argsort_perm : forall x, Permutation (argsort x) (seq 0 (length x)).
  Notation init := (initialize_posterior argsort).

  (** parameters must be in the fitting basis *)
  Lemma basis_refused P decorr h : b_name (ps_basis (P_params P)) <> P_fitting_basis P -> init P decorr h = Err AssertionError.
  Proof. intro N. unfold initialize_posterior. destruct (String.eqb_spec (b_name (ps_basis (P_params P))) (P_fitting_basis P)); [contradiction|reflexivity]. Qed.

  Lemma basis_accepted P decorr h r : init P decorr h = Ok r -> b_name (ps_basis (P_params P)) = P_fitting_basis P.
  Proof. intro E. apply (init_steps argsort P decorr h r E). Qed.

  Lemma decorr_refused P h : b_name (ps_basis (P_params P)) = P_fitting_basis P -> P_decorr_vars P = None -> init P true h = Err PlainException.
  Proof. intros E N. unfold initialize_posterior. rewrite E, String.eqb_refl, N. reflexivity. Qed.

  (** every instrument has data, an offset and a jitter *)
  Lemma instruments_have_data P decorr h r nm : params_ok h (P_params P) -> init P decorr h = Ok r -> In nm (P_instnames P) ->
    exists o, In o (P_data P) /\ o_tel o = nm.
  Proof.
    intros K E Hn. destruct (init_inv argsort argsort_perm _ _ _ _ K E) as (vars & h0 & d0 & h1 & vec & b & v & _ & _ & _ & _ & _ & I & _).
    destruct (in_data _ _ _ _ _ _ _ I nm Hn) as (R & _). destruct (rows_for (P_data P) nm) as [|o l] eqn:ER; [congruence|].
    exists o. apply rows_in. rewrite ER. now left.
  Qed.

  Lemma offset_required P decorr h r nm : params_ok h (P_params P) -> (forall k, In k (dkeys (ps_items (P_params P))) -> ~ logjit_key k) ->
    init P decorr h = Ok r -> In nm (P_instnames P) ->
    In ("gamma_" ++ nm) (dkeys (ps_items (P_params P))) /\ In ("jit_" ++ nm) (dkeys (ps_items (P_params P))).
  Proof.
    intros K NL E Hn. destruct (init_inv argsort argsort_perm _ _ _ _ K E) as (vars & h0 & d0 & h1 & vec & b & v & _ & EL & _ & _ & _ & I & _).
    rewrite loop_none in EL by auto. inversion EL; subst. apply (in_data _ _ _ _ _ _ _ I nm Hn).
  Qed.

  (** one likelihood per instrument *)
  Lemma one_likelihood P decorr h r : params_ok h (P_params P) -> init P decorr h = Ok r ->
    NoDup (dkeys (i_likes r)) /\ (forall nm, In nm (dkeys (i_likes r)) <-> In nm (P_instnames P)) /\
    (NoDup (P_instnames P) -> dkeys (i_likes r) = P_instnames P).
  Proof.
    intros K E. destruct (init_inv argsort argsort_perm _ _ _ _ K E) as (vars & h0 & d0 & h1 & vec & b & v & _ & _ & _ & _ & _ & I & _ & _ & _ & _ & -> & _).
    split; [apply I|]. split; apply I.
  Qed.

  Lemma own_rows_only P decorr h r nm ty l : params_ok h (P_params P) -> init P decorr h = Ok r -> dget (i_likes r) nm = Some (ty, l) ->
    exists rows, own_rows nm (P_data P) rows /\ rows <> [] /\ Permutation (measured l) (triples rows) /\
      ((forall hn, ty <> CeleriteLike hn) -> l_x l = map o_time rows /\ l_y l = map o_vel rows /\ l_yerr l = map o_err rows) /\
      l_gamma l = "gamma_" ++ nm /\ l_jit l = "jit_" ++ nm /\ l_suffix l = nm /\ l_telvec l = map (fun _ => nm) rows.
  Proof.
    intros K E G. destruct (init_inv argsort argsort_perm _ _ _ _ K E) as (vars & h0 & d0 & h1 & vec & b & v & _ & _ & _ & _ & _ & I & _ & _ & _ & _ & EL & _).
    rewrite EL in G. destruct (in_likes _ _ _ _ _ _ _ I _ _ _ G) as (_ & [A B X Y Z C D F T] & _). exists (rows_for (P_data P) nm).
    split; [apply rows_own|]. split; [|auto 10]. apply (in_data _ _ _ _ _ _ _ I). apply (in_keys _ _ _ _ _ _ _ I). eapply dget_key; eauto.
  Qed.

  (** which class *)
  Lemma class_chosen P decorr h r nm ty l : params_ok h (P_params P) -> init P decorr h = Ok r -> dget (i_likes r) nm = Some (ty, l) ->
    match P_hnames P with
    | None => ty = RVLike
    | Some hn => exists names, dget hn nm = Some names /\
        match P_kernel_name P with
        | None => ty = GPLike "QuasiPer" names
        | Some kn => exists k, dget kn nm = Some k /\ (k = "Celerite" -> ty = CeleriteLike names) /\ (k <> "Celerite" -> ty = GPLike k names)
        end
    end.
  Proof.
    intros K E G. destruct (init_inv argsort argsort_perm _ _ _ _ K E) as (vars & h0 & d0 & h1 & vec & b & v & _ & _ & _ & _ & _ & I & _ & _ & _ & _ & EL & _).
    rewrite EL in G. destruct (in_likes _ _ _ _ _ _ _ I _ _ _ G) as (C & _). unfold choose_type in C.
    destruct (P_hnames P) as [hn|]; [|congruence]. unfold dget_res in C. destruct (dget hn nm) as [names|]; [|discriminate]. cbn [bind] in C.
    exists names. split; auto. destruct (P_kernel_name P) as [kn|]; [|congruence]. destruct (dget kn nm) as [k|]; [|discriminate]. cbn [bind] in C.
    exists k. split; auto. destruct (String.eqb_spec k "Celerite"); split; intro; try contradiction; congruence.
  Qed.

  (** decorrelation coefficients: only for likelihoods without a kernel *)
  Lemma decorr_terms P decorr h r nm ty l : params_ok h (P_params P) -> init P decorr h = Ok r -> dget (i_likes r) nm = Some (ty, l) ->
    exists vars, (if decorr then P_decorr_vars P = Some vars else vars = []) /\
      l_decorr l = match ty with RVLike => map (fun v => "c1_" ++ v ++ "_" ++ nm) vars | _ => [] end.
  Proof.
    intros K E G. destruct (init_inv argsort argsort_perm _ _ _ _ K E) as (vars & h0 & d0 & h1 & vec & b & v & V & _ & _ & _ & _ & I & _ & _ & _ & _ & EL & _).
    rewrite EL in G. destruct (in_likes _ _ _ _ _ _ _ I _ _ _ G) as (_ & _ & D). exists vars. auto.
  Qed.

  (** the composite likelihood holds exactly the rows of the listed instruments, each once *)
  Lemma composite_rows P decorr h r : params_ok h (P_params P) -> init P decorr h = Ok r -> NoDup (P_instnames P) ->
    Permutation (combine (cp_x (i_comp r)) (cp_yerr (i_comp r)))
                (map (fun o => (o_time o, o_err o)) (filter (listed (P_instnames P)) (P_data P))) /\
    length (cp_x (i_comp r)) = length (filter (listed (P_instnames P)) (P_data P)) /\
    length (cp_yerr (i_comp r)) = length (filter (listed (P_instnames P)) (P_data P)).
  Proof.
    intros K E ND. destruct (init_inv argsort argsort_perm _ _ _ _ K E) as (vars & h0 & d0 & h1 & vec & b & v & _ & _ & _ & _ & _ & I & C & _).
    apply composite_data in C. destruct C as (X & Y & _). rewrite map_map in X, Y. cbn [c_like] in X, Y.
    set (fx := fun x : string * (liketype * rvlike) => l_x (snd (snd x))) in *.
    set (fe := fun x : string * (liketype * rvlike) => l_yerr (snd (snd x))) in *.
    assert (forall x, In x (bl_likes b) -> made (fst x) (rows_for (P_data P) (fst x)) (fst (snd x)) (snd (snd x))) as M.
    { intros [nm [ty l]] Hx. apply (in_likes _ _ _ _ _ _ _ I nm ty l). apply in_dget; [apply I|exact Hx]. }
    assert (Permutation (combine (cp_x (i_comp r)) (cp_yerr (i_comp r))) (map (fun o => (o_time o, o_err o)) (filter (listed (P_instnames P)) (P_data P)))) as Q.
    { rewrite X, Y, concat_combine.
      - rewrite <- (rows_partition _ _ ND). rewrite concat_map, map_map. rewrite <- (in_order _ _ _ _ _ _ _ I ND). unfold dkeys. rewrite map_map.
        apply concat_perm. intros x Hx. pose proof (M x Hx) as [A _ LX LY LE _ _ _ _]. unfold fx, fe.
        rewrite (pairs_of_triples _ (l_y (snd (snd x)))) by lia. fold (measured (snd (snd x))). rewrite A. unfold triples. rewrite map_map. reflexivity.
      - intros x Hx. pose proof (M x Hx) as [_ _ LX LY LE _ _ _ _]. unfold fx, fe. lia. }
    split; [exact Q|]. assert (length (cp_x (i_comp r)) = length (cp_yerr (i_comp r))) as LL.
    { rewrite X, Y. clear - M. induction (bl_likes b) as [|x l IH]; auto. cbn [map concat]. rewrite !app_length, IH by (intros; apply M; now right).
      pose proof (M x (or_introl eq_refl)) as [_ _ LX LY LE _ _ _ _]. unfold fx, fe. lia. }
    apply Permutation_length in Q. rewrite combine_length, map_length in Q. lia.
  Qed.

  (** parameters of the setup file are neither changed nor lost, and only decorrelation coefficients are added *)
  Lemma params_kept P decorr h r : params_ok h (P_params P) -> (forall k, In k (dkeys (ps_items (P_params P))) -> ~ logjit_key k) ->
    init P decorr h = Ok r -> keeps_params h (ps_items (P_params P)) (i_heap r) (ps_items (i_params r)) /\
    (forall k, In k (dkeys (ps_items (i_params r))) -> In k (dkeys (ps_items (P_params P))) \/
       exists v nm vars, decorr = true /\ P_decorr_vars P = Some vars /\ In v vars /\ In nm (P_instnames P) /\ k = "c1_" ++ v ++ "_" ++ nm).
  Proof.
    intros K NL E. destruct (init_inv argsort argsort_perm _ _ _ _ K E) as (vars & h0 & d0 & h1 & vec & b & v & V & EL & K0 & [t ->] & _ & I & _ & _ & EH & EP & _).
    rewrite loop_none in EL by auto. inversion EL; subst h0 d0. rewrite EH, EP. split.
    - intros k p G. unfold get_param in *. destruct (dget (ps_items (P_params P)) k) as [l|] eqn:Ek; [|discriminate].
      rewrite (in_keep _ _ _ _ _ _ _ I _ _ Ek). split; auto. destruct (in_heap _ _ _ _ _ _ _ I) as [t' ->]. rewrite <- app_assoc.
      rewrite nth_error_app1; auto. apply nth_error_Some. congruence.
    - intros k Hk. apply (in_new _ _ _ _ _ _ _ I) in Hk. destruct Hk as [|(w & nm & H1 & H2 & H3 & H4)]; auto.
      right. exists w, nm, vars. destruct decorr; [auto|]. subst vars. destruct H3.
  Qed.

  (** ** deprecated logjit parameters *)
  Lemma logjit_breaks P decorr h pre k k2 post p x : b_name (ps_basis (P_params P)) = P_fitting_basis P ->
    (decorr = true -> P_decorr_vars P <> None) ->
    dkeys (ps_items (P_params P)) = (pre ++ k :: k2 :: post)%list -> (forall k', In k' pre -> ~ logjit_key k') -> logjit_key k ->
    get_param h (ps_items (P_params P)) k = Some p -> p_value p = Some x ->
    init P decorr h = Err RuntimeError.
  Proof.
    intros EB ED EK NP K G V. unfold initialize_posterior. rewrite EB, String.eqb_refl. cbn [negb].
    assert (exists vars, (if decorr then match P_decorr_vars P with Some l => Ok l | None => Err PlainException end else Ok []) = Ok vars) as [vars ->].
    { destruct decorr; eauto. destruct (P_decorr_vars P); eauto. now destruct ED. }
    cbn [bind]. rewrite EK, (loop_mid _ _ _ _ _ _ p x); auto.
  Qed.

  Lemma logjit_converted P decorr h r pre k p : params_ok h (P_params P) ->
    dkeys (ps_items (P_params P)) = (pre ++ [k])%list -> (forall k', In k' pre -> ~ logjit_key k') -> logjit_key k ->
    get_param h (ps_items (P_params P)) k = Some p -> init P decorr h = Ok r ->
    exists x, p_value p = Some x /\
      get_param (i_heap r) (ps_items (i_params r)) (replace_logjit k) = Some (mkParam (Some (exp x)) (p_vary p) None false) /\
      ~ In k (dkeys (ps_items (i_params r))) /\
      (forall k' q, k' <> k -> k' <> replace_logjit k -> get_param h (ps_items (P_params P)) k' = Some q ->
         get_param (i_heap r) (ps_items (i_params r)) k' = Some q).
  Proof.
    intros K EK NP KJ G E. destruct (init_inv argsort argsort_perm _ _ _ _ K E) as (vars & h0 & d0 & h1 & vec & b & v & V & EL & K0 & [t ->] & _ & I & _ & _ & EH & EP & _).
    rewrite EK, loop_last in EL by auto. destruct (p_value p) as [x|] eqn:EX.
    2:{ unfold convert_logjit in EL. rewrite G, EX in EL. discriminate. }
    exists x. split; auto. destruct K as [_ O].
    assert (~ logjit_key (replace_logjit k)) as NR.
    { destruct KJ as [s ->]. intros [s' E']. cbn in E'. discriminate E'. }
    destruct (convert_spec h (ps_items (P_params P)) k p x (o_wf _ _ O) (o_alloc _ _ O) NR KJ G EX) as (h' & d' & C & N & GN & NK & GO & KS).
    rewrite C in EL. inversion EL; subst h' d'. rewrite EH, EP.
    assert (forall k' q, get_param h0 d0 k' = Some q -> get_param (bl_heap b) (ps_items (bl_params b)) k' = Some q) as Q.
    { intros k' q Gq. unfold get_param in *. destruct (dget d0 k') as [l|] eqn:Ek; [|discriminate].
      rewrite (in_keep _ _ _ _ _ _ _ I _ _ Ek). destruct (in_heap _ _ _ _ _ _ _ I) as [t' ->]. rewrite <- app_assoc.
      rewrite nth_error_app1; auto. apply nth_error_Some. congruence. }
    split; [now apply Q|]. split.
    - intro Hk. apply (in_new _ _ _ _ _ _ _ I) in Hk. destruct Hk as [|(w & nm & _ & _ & _ & H4)]; [contradiction|].
      destruct KJ as [s Es]. rewrite Es in H4. discriminate H4.
    - intros k' q N1 N2 Gq. apply Q. rewrite GO; auto.
  Qed.

  (** no deprecated name is left in the result *)
  Lemma no_logjit_left P decorr h r : params_ok h (P_params P) -> init P decorr h = Ok r ->
    forall k, In k (dkeys (ps_items (i_params r))) -> ~ logjit_key k.
  Proof.
    intros K E k Hk KJ. destruct (init_inv argsort argsort_perm _ _ _ _ K E) as (vars & h0 & d0 & h1 & vec & b & v & V & EL & K0 & _ & _ & I & _ & _ & EH & EP & _).
    rewrite EP in Hk. apply (in_new _ _ _ _ _ _ _ I) in Hk. destruct Hk as [Hk|(w & nm & _ & _ & _ & H4)].
    2:{ destruct KJ as [s Es]. rewrite Es in H4. discriminate H4. }
    apply loop_ok in EL. destruct EL as [(A & _ & ->)|(pre & k0 & A & B & C & D)]; [eapply A; eauto|].
    unfold convert_logjit in D. destruct (get_param h _ k0) as [p|] eqn:G; [|discriminate]. destruct (p_value p) as [x|]; [|discriminate].
    unfold set_new in D. cbn [fst snd] in D. inversion D; subst d0; clear D.
    destruct (String.eqb_spec k k0) as [->|N].
    - revert Hk. apply dget_none. apply dget_dremove_same. apply wf_dset. destruct K as [_ O]. apply O.
    - apply dkeys_dremove_incl in Hk. rewrite dkeys_dset in Hk.
      assert (In k (dkeys (ps_items (P_params P))) \/ k = replace_logjit k0) as [Hi|Hi].
      { destruct (dmem _ _); auto. apply in_app_or in Hk. destruct Hk as [|[|[]]]; auto. }
      + rewrite A in Hi. apply in_app_or in Hi. destruct Hi as [Hi|[Hi|[]]]; [|congruence]. eapply B; eauto.
      + destruct C as [s ->]. destruct KJ as [s' ->]. cbn in Hi. discriminate Hi.
  Qed.

  Lemma only_last_logjit P decorr h r k : params_ok h (P_params P) -> init P decorr h = Ok r ->
    In k (dkeys (ps_items (P_params P))) -> logjit_key k -> exists pre, dkeys (ps_items (P_params P)) = (pre ++ [k])%list /\ forall k', In k' pre -> ~ logjit_key k'.
  Proof.
    intros K E Hk KJ. destruct (init_inv argsort argsort_perm _ _ _ _ K E) as (vars & h0 & d0 & h1 & vec & b & v & V & EL & _).
    apply loop_ok in EL. destruct EL as [(A & _ & _)|(pre & k0 & A & B & C & D)]; [now destruct (A k)|].
    exists pre. split; auto. rewrite A in Hk. apply in_app_or in Hk. destruct Hk as [Hk|[->|[]]]; [now destruct (B k)|]. exact A.
  Qed.

  (** ** agreement with likelihoods built directly (LikeBuild.build_likes) *)
  Definition inst_data (P : setup) (decorr : bool) (vars : list string) (nm : string) : res dataset :=
    let rows := rows_for (P_data P) nm in
    do vecs <- (if decorr then decorr_vectors rows vars else Ok []);
    Ok (mkData (map o_time rows) (map o_vel rows) (map o_err rows) ("_" ++ nm) vars vecs).

  Lemma loop_builds P decorr vars ip d0 : P_hnames P = None ->
    (forall k l, inst k = true -> dget (ps_items ip) k = Some l -> dget d0 k = Some l) ->
    forall nms b b', (forall k l, dget d0 k = Some l -> dget (ps_items (bl_params b)) k = Some l) ->
    NoDup nms -> (forall nm, In nm nms -> ~ In nm (dkeys (bl_likes b))) ->
    for_each nms (add_inst argsort P decorr vars ip) b = Ok b' ->
    exists ds ls, map_res (inst_data P decorr vars) nms = Ok ds /\
      build_likes (bl_heap b) (bl_params b) (bl_vector b) ds = Ok (bl_heap b', bl_params b', bl_vector b', ls) /\
      map (fun x => snd (snd x)) (bl_likes b') = (map (fun x => snd (snd x)) (bl_likes b) ++ ls)%list.
  Proof.
    intros HN HI. induction nms as [|nm nms IH]; intros b b' HB ND NI E.
    - cbn in E. inversion E; subst. exists [], []. cbn. rewrite app_nil_r. auto.
    - cbn [for_each] in E. destruct (add_inst argsort P decorr vars ip b nm) as [b1|] eqn:E1; [|discriminate]. cbn [bind] in E.
      destruct (add_inst_inv argsort argsort_perm _ _ _ _ _ _ _ _ HI HB E1) as (R & Kg & Kj & vecs & ty & h2 & ps1 & vec1 & l & EV & ET & EM & E2).
      unfold choose_type in ET. rewrite HN in ET. inversion ET; subst ty. 
      destruct (make_like_ext argsort argsort_perm _ _ _ _ _ _ _ _ _ _ _ _ EM) as (_ & HX & _). cbn [make_like] in EM.
      inversion ND; subst. destruct (IH (mkBuilding h2 ps1 vec1 (dset (bl_likes b) nm (RVLike, l))) b' (fun k i H => HX k i (HB k i H)) H2) with (2 := E) as (ds & ls & A & B & C).
      { intros n' Hn. cbn [bl_likes]. rewrite dkeys_dset. destruct (dmem (bl_likes b) nm); [apply NI; now right|].
        intro Hi. apply in_app_or in Hi. destruct Hi as [Hi|[Hi|[]]]; [revert Hi; apply NI; now right|congruence]. }
      exists (mkData (map o_time (rows_for (P_data P) nm)) (map o_vel (rows_for (P_data P) nm)) (map o_err (rows_for (P_data P) nm)) ("_" ++ nm) vars vecs :: ds), (l :: ls).
      split; [cbn [map_res]; unfold inst_data at 1; rewrite EV; cbn [bind]; now rewrite A|].
      split.
      + cbn [build_likes ds_t ds_y ds_err ds_suffix ds_dvars ds_dvecs]. rewrite EM. cbn [bind]. cbn [bl_heap bl_params bl_vector] in B. now rewrite B.
      + rewrite C. cbn [bl_likes].
        assert (dmem (bl_likes b) nm = false) as NM.
        { destruct (dmem (bl_likes b) nm) eqn:EM'; auto. apply dmem_in in EM'. exfalso. apply (NI nm); [now left|exact EM']. }
        assert (forall d : dict (liketype * rvlike), dmem d nm = false -> dset d nm (RVLike, l) = (d ++ [(nm, (RVLike, l))])%list) as DS.
        { induction d as [|[k' v'] d IHd]; intro H; [reflexivity|]. unfold dmem in *. cbn in *. destruct (String.eqb nm k'); [discriminate|]. cbn. now rewrite IHd. }
        rewrite DS, map_app by auto. cbn [map snd]. now rewrite <- app_assoc.
  Qed.

  Lemma build_vector ds : forall h ps vec h1 ps1 vec1 ls, ds <> [] -> build_likes h ps vec ds = Ok (h1, ps1, vec1, ls) ->
    dict_to_vector h1 (ps_items ps1) (v_indices vec1) = Ok (v_vector vec1).
  Proof.
    induction ds as [|x ds IH]; intros h ps vec h1 ps1 vec1 ls NE E; [congruence|]. cbn [build_likes] in E.
    destruct (rvlike_init _ _ _ _ _ _ _ _ _) as [[[[h2 ps2] vec2] l]|] eqn:E1; [|discriminate]. cbn [bind] in E.
    destruct (build_likes h2 ps2 vec2 ds) as [[[[h3 ps3] vec3] ls']|] eqn:E2; [|discriminate]. cbn [bind] in E. inversion E; subst.
    destruct ds as [|y ds].
    - cbn in E2. inversion E2; subst. unfold rvlike_init, likelihood_init in E1.
      destruct (fold_left add_extra _ _) as [[[h2 d2] idx2] n2] eqn:EF.
      destruct (dict_to_vector h2 d2 idx2) as [v|] eqn:EV; [|discriminate]. cbn [bind] in E1.
      destruct (vector_names d2 idx2) as [nm|]; [|discriminate]. cbn [bind v_indices] in E1.
      destruct (dget_res _ _) as [gi|]; [|discriminate]. cbn [bind] in E1.
      destruct (dget_res _ _) as [ji|]; [|discriminate]. cbn [bind] in E1. inversion E1; subst. cbn. exact EV.
    - eapply IH; [discriminate|exact E2].
  Qed.

  Lemma builds P decorr h r : params_ok h (P_params P) -> P_hnames P = None -> NoDup (P_instnames P) -> init P decorr h = Ok r ->
    exists vars h0 ps0 vec ds ls, 
      (if decorr then P_decorr_vars P = Some vars else vars = []) /\ params_ok h0 ps0 /\
      vector_init h0 ps0 = Ok vec /\ map_res (inst_data P decorr vars) (P_instnames P) = Ok ds /\
      build_likes h0 ps0 vec ds = Ok (i_heap r, i_params r, i_vector r, ls) /\
      map (fun x => snd (snd x)) (i_likes r) = ls /\
      composite_init (i_heap r) (v_vector (i_vector r)) (map (fun l => mkCM l (ps_items (i_params r)) 0) ls) = Ok (i_comp r).
  Proof.
    intros K HN ND E. destruct (init_steps argsort _ _ _ _ E) as (EB & vars & h0 & d0 & h1 & ip & vec & b & v & H1 & H2 & H3 & H4 & H5 & H6 & H7 & H8 & H9 & H10 & H11).
    destruct (loop_stage _ _ _ _ K H2) as [K0 _]. destruct (copy_facts _ _ _ _ K0 H3) as [[t X] Y].
    destruct (loop_builds P decorr vars ip d0 HN Y (P_instnames P) (mkBuilding h1 (with_items (P_params P) d0) vec []) b (fun k l H => H) ND) with (2 := H5) as (ds & ls & A & B & C).
    { intros nm _ []. }
    cbn [bl_heap bl_params bl_vector bl_likes map app] in B, C.
    exists vars, h1, (with_items (P_params P) d0), vec, ds, ls.
    assert (P_instnames P <> []) as NE.
    { intro Z. rewrite Z in H5. cbn in H5. inversion H5; subst b. cbn in H6. discriminate. }
    assert (ds <> []) as NE2.
    { intro Z. subst ds. destruct (P_instnames P) as [|n0 ns]; [congruence|]. cbn [map_res] in A.
      destruct (inst_data P decorr vars n0); [|discriminate]. cbn [bind] in A. destruct (map_res _ ns); discriminate. }
    pose proof (build_vector _ _ _ _ _ _ _ _ NE2 B) as BV. rewrite BV in H7. inversion H7; subst v.
    assert (i_vector r = bl_vector b) as EV by (rewrite H11; now destruct (bl_vector b)).
    rewrite H8, H9, H10, EV. split; [exact H1|]. split.
    { destruct K0 as [L O]. split; auto. split; [apply O| |apply O]. intros k l Hl. rewrite X, app_length. apply (o_alloc _ _ O) in Hl. lia. }
    split; [exact H4|]. split; [exact A|]. split; [exact B|]. split; [exact C|].
    rewrite <- C, map_map. exact H6.
  Qed.
End Thm.

(** ** when it succeeds *)
Section Complete.
  Variable argsort : list R -> list nat.

  Lemma rvlike_same h ps vec t y e nm gi ji : In ("gamma_" ++ nm) (dkeys (ps_items ps)) -> In ("jit_" ++ nm) (dkeys (ps_items ps)) ->
    dget (v_indices vec) ("gamma_" ++ nm) = Some gi -> dget (v_indices vec) ("jit_" ++ nm) = Some ji ->
    dict_to_vector h (ps_items ps) (v_indices vec) = Ok (v_vector vec) -> vector_names (ps_items ps) (v_indices vec) = Ok (v_names vec) ->
    rvlike_init h ps vec t y e ("_" ++ nm) [] [] =
      Ok (h, ps, vec, mkLike t y e ("gamma_" ++ nm) ("jit_" ++ nm) gi ji nm (map (fun _ => nm) t) [] [] ps (v_indices vec)).
  Proof.
    intros Kg Kj Ig Ij V N. unfold rvlike_init, likelihood_init. cbn [map app fold_left].
    change ("gamma" ++ "_" ++ nm) with ("gamma_" ++ nm). change ("jit" ++ "_" ++ nm) with ("jit_" ++ nm).
    unfold add_extra. rewrite (proj2 (dmem_in _ _) Kg). unfold dmem at 1. rewrite Ig.
    rewrite (proj2 (dmem_in _ _) Kj). unfold dmem. rewrite Ij. rewrite V. cbn [bind]. rewrite N. cbn [bind v_indices].
    unfold dget_res. rewrite Ig. cbn [bind]. rewrite Ij. cbn [bind]. destruct ps, vec. reflexivity.
  Qed.

  Lemma loop_complete (Q : string -> Prop) P ip h ps vec : P_hnames P = None ->
    dict_to_vector h (ps_items ps) (v_indices vec) = Ok (v_vector vec) -> vector_names (ps_items ps) (v_indices vec) = Ok (v_names vec) ->
    forall nms likes, (forall nm, In nm nms -> Q nm /\ rows_for (P_data P) nm <> [] /\
       In ("gamma_" ++ nm) (dkeys (ps_items ps)) /\ In ("jit_" ++ nm) (dkeys (ps_items ps)) /\
       (exists gi, dget (v_indices vec) ("gamma_" ++ nm) = Some gi) /\ (exists ji, dget (v_indices vec) ("jit_" ++ nm) = Some ji) /\
       dget (ps_items ip) ("gamma_" ++ nm) = dget (ps_items ps) ("gamma_" ++ nm) /\
       dget (ps_items ip) ("jit_" ++ nm) = dget (ps_items ps) ("jit_" ++ nm)) ->
    (forall x, In x likes -> l_indices (snd (snd x)) = v_indices vec /\ exists nm, l_gamma (snd (snd x)) = "gamma_" ++ nm /\ Q nm) ->
    exists likes', for_each nms (add_inst argsort P false [] ip) (mkBuilding h ps vec likes) = Ok (mkBuilding h ps vec likes') /\
      (forall x, In x likes' -> l_indices (snd (snd x)) = v_indices vec /\ exists nm, l_gamma (snd (snd x)) = "gamma_" ++ nm /\ Q nm) /\
      (nms <> [] \/ likes <> [] -> likes' <> []).
  Proof.
    intros HN V N. induction nms as [|nm nms IH]; intros likes H HL.
    - exists likes. cbn. split; auto. split; auto. intros [|]; congruence.
    - destruct (H nm (or_introl eq_refl)) as (HQ & R & Kg & Kj & [gi Ig] & [ji Ij] & Eg & Ej).
      cbn [for_each]. unfold add_inst at 1. destruct (rows_for (P_data P) nm) as [|o rr] eqn:ER; [congruence|]. rewrite <- ER. cbn [bind].
      unfold choose_type. rewrite HN. cbn [bind make_like bl_heap bl_params bl_vector].
      rewrite (rvlike_same h ps vec _ _ _ nm gi ji) by auto. cbn [bind]. unfold set_item, dget_res. rewrite Eg.
      destruct (dget (ps_items ps) ("gamma_" ++ nm)) as [lg|] eqn:Dg; [|now apply dget_none in Dg].
      cbn [bind]. rewrite (dset_same_value _ _ _ Dg). rewrite Ej.
      destruct (dget (ps_items ps) ("jit_" ++ nm)) as [lj|] eqn:Dj; [|now apply dget_none in Dj].
      cbn [bind with_items ps_items ps_basis ps_num ps_pp ps_letters]. rewrite (dset_same_value _ _ _ Dj).
      set (x := mkLike _ _ _ _ _ _ _ _ _ _ _ _ _).
      destruct (IH (dset likes nm (RVLike, x))) as (likes' & A & B & C).
      + intros; apply H; now right.
      + intros z Hz. assert (forall d : dict (liketype * rvlike), In z (dset d nm (RVLike, x)) -> In z d \/ z = (nm, (RVLike, x))) as QQ.
        { induction d as [|[k' v'] d IHd]; cbn; [intros [|[]]; auto|]. destruct (String.eqb_spec nm k') as [->|].
          - cbn. intros [|]; auto. - cbn. intros [|Hd]; auto. destruct (IHd Hd); auto. }
        apply QQ in Hz. destruct Hz as [Hz|Hz]; [auto|]. subst z. cbn. split; [reflexivity|]. exists nm. auto.
      + exists likes'. split; [|split; [exact B|]].
        * change (with_items (with_items ps (ps_items ps)) (ps_items ps)) with (mkParams (ps_items ps) (ps_basis ps) (ps_num ps) (ps_pp ps) (ps_letters ps)).
          destruct ps; cbn in *. exact A.
        * intros _. apply C. right. destruct likes as [|[k' v'] ?]; cbn; [discriminate|]. destruct (String.eqb nm k'); discriminate.
  Qed.

  (** rows of an instrument exist *)
  Definition has_rows (P : setup) (nm : string) : Prop := exists o, In o (P_data P) /\ o_tel o = nm.

  Lemma complete P h : params_ok h (P_params P) -> b_name (ps_basis (P_params P)) = P_fitting_basis P ->
    (forall k, In k (dkeys (ps_items (P_params P))) -> ~ logjit_key k) ->
    (forall k, In k (dkeys (ps_items (P_params P))) -> exists p b, get_param h (ps_items (P_params P)) k = Some p /\ p_vary p = VBool b) ->
    P_hnames P = None -> P_instnames P <> [] ->
    (forall nm, In nm (P_instnames P) -> has_rows P nm /\ In ("jit_" ++ nm) (dkeys (ps_items (P_params P))) /\
       exists p x, get_param h (ps_items (P_params P)) ("gamma_" ++ nm) = Some p /\ p_value p = Some x) ->
    exists r, initialize_posterior argsort P false h = Ok r /\ ps_items (i_params r) = ps_items (P_params P) /\
      forall k i p, get_param h (ps_items (P_params P)) k = Some p -> dget (v_indices (i_vector r)) k = Some i ->
        exists row, nth_error (v_vector (i_vector r)) i = Some row /\ r_val row = p_value p /\ p_vary p = VBool (r_vary row).
  Proof.
    intros K EB NL ST HN NE HI. unfold initialize_posterior. rewrite EB, String.eqb_refl. cbn [negb bind]. rewrite loop_none by auto. cbn [bind].
    set (ps := with_items (P_params P) (ps_items (P_params P))). assert (ps = P_params P) as EP by (unfold ps, with_items; now destruct (P_params P)).
    assert (params_ok h ps) as K0 by now rewrite EP. destruct (copy_params h ps) as [h1 ip] eqn:EC.
    pose proof (copy_facts _ _ _ _ K0 EC) as [[t X] Y]. destruct K0 as [[names L] O].
    destruct (copy_params_spec _ _ _ _ EC (locs_of _ _ O) (o_wf _ _ O)) as (_ & _ & _ & _ & _ & _ & _ & _ & _ & KK & _).
    rewrite EP in *. set (d := ps_items (P_params P)) in *. clear ps EP.
    assert (forall k p, get_param h d k = Some p -> get_param h1 d k = Some p) as GP.
    { intros k p G. unfold get_param in *. destruct (dget d k) as [l|]; [|discriminate]. rewrite X, nth_error_app1; auto. apply nth_error_Some. congruence. }
    assert (all_storable h1 d) as S1.
    { intros k Hk. destruct (ST k Hk) as (p & b & G & V). exists p, b. auto. }
    destruct (d2v _ _ _ _ _ L S1) as (v & EV & _ & HV & _). destruct (names_ok _ _ _ _ L) as (nm0 & EN & _).
    unfold rvmodel_init, vector_init. fold d. rewrite EV. cbn [bind]. rewrite EN. cbn [bind m_vector].
    set (idx := init_index_dict (ps_num (P_params P)) (dkeys d)) in *. set (vec := mkVector idx v nm0).
    assert (forall k, In k (dkeys d) -> is_extra k = true -> exists i, dget idx k = Some i) as IX.
    { intros k Hk He. unfold idx. rewrite (index_extra _ _ _ (l_nodup _ _ _ _ L) Hk He). eauto. }
    destruct (loop_complete (fun nm => In nm (P_instnames P)) P ip h1 (P_params P) vec HN EV EN (P_instnames P) []) as (likes' & EF & HL & NL').
    { intros nm Hn. destruct (HI nm Hn) as ((o & Ho & Et) & Kj & p & x & Gp & _).
      assert (In ("gamma_" ++ nm) (dkeys d)) as Kg by (unfold get_param in Gp; destruct (dget d ("gamma_" ++ nm)) eqn:E; [eapply dget_key; eauto|discriminate]).
      split; [exact Hn|]. split. { intro Z. assert (In o (rows_for (P_data P) nm)) as Hr by (apply rows_in; auto). rewrite Z in Hr. destruct Hr. }
      split; [exact Kg|]. split; [exact Kj|]. split; [apply IX; auto|]. split; [apply IX; auto|]. fold d.
      split.
      - destruct (dget d ("gamma_" ++ nm)) as [l|] eqn:E; [now apply KK|now apply dget_none in E].
      - destruct (dget d ("jit_" ++ nm)) as [l|] eqn:E; [now apply KK|now apply dget_none in E]. }
    { intros x []. }
    rewrite EF. cbn [bind bl_heap bl_params bl_vector bl_likes].
    destruct (composite_same h1 (v_vector vec) d 0%nat (map (fun x => mkCM (snd (snd x)) (ps_items (P_params P)) 0) likes')) as [c EC2].
    { destruct likes'; [|discriminate]. exfalso. apply NL'; auto. }
    { intros k Hk. destruct (S1 k Hk) as (p & b & G & _). eauto. }
    { intros m Hm. apply in_map_iff in Hm. destruct Hm as (x & <- & Hx). cbn [c_items c_vector_id c_like]. split; [reflexivity|]. split; [reflexivity|].
      destruct (HL x Hx) as (E1 & nm & E2 & Hin). rewrite E1, E2.
      destruct (HI nm Hin) as (_ & _ & p & x0 & Gp & Ex). assert (In ("gamma_" ++ nm) (dkeys d)) as Kg by (unfold get_param in Gp; destruct (dget d ("gamma_" ++ nm)) eqn:E; [eapply dget_key; eauto|discriminate]). destruct (IX ("gamma_" ++ nm) Kg eq_refl) as [i Hi].
      exists i. cbn [v_indices vec]. apply GP in Gp.
      exists x0. split; [exact Hi|]. unfold vget. cbn [v_vector vec]. rewrite (HV _ _ Kg Hi). unfold row_at. rewrite Gp. cbn. now rewrite Ex. }
    rewrite EC2. cbn [bind]. cbn [v_indices vec]. fold d. rewrite EV. cbn [bind].
    eexists. split; [reflexivity|]. cbn [i_params i_vector v_indices v_vector]. split; [reflexivity|].
    intros k i p G Hi. assert (In k (dkeys d)) as Hk by (unfold get_param in G; destruct (dget d k) eqn:E; [eapply dget_key; eauto|discriminate]).
    exists (row_at h1 d k). split; [now apply HV|]. unfold row_at. rewrite (GP _ _ G).
    destruct (ST k Hk) as (p' & bb & G' & V). assert (p' = p) as -> by congruence. cbn. split; auto. now rewrite V.
  Qed.
End Complete.

(** an instrument without data *)
Lemma missing_data argsort P h pre nm post : params_ok h (P_params P) -> b_name (ps_basis (P_params P)) = P_fitting_basis P ->
  (forall k, In k (dkeys (ps_items (P_params P))) -> ~ logjit_key k) ->
  (forall k, In k (dkeys (ps_items (P_params P))) -> exists p b, get_param h (ps_items (P_params P)) k = Some p /\ p_vary p = VBool b) ->
  P_hnames P = None -> P_instnames P = (pre ++ nm :: post)%list ->
  (forall n, In n pre -> has_rows P n /\ In ("gamma_" ++ n) (dkeys (ps_items (P_params P))) /\ In ("jit_" ++ n) (dkeys (ps_items (P_params P)))) ->
  ~ has_rows P nm -> initialize_posterior argsort P false h = Err AssertionError.
Proof.
  intros K EB NL ST HN EI HI NR. unfold initialize_posterior. rewrite EB, String.eqb_refl. cbn [negb bind]. rewrite loop_none by auto. cbn [bind].
  set (ps := with_items (P_params P) (ps_items (P_params P))). assert (ps = P_params P) as EP by (unfold ps, with_items; now destruct (P_params P)).
  assert (params_ok h ps) as K0 by now rewrite EP. destruct (copy_params h ps) as [h1 ip] eqn:EC.
  pose proof (copy_facts _ _ _ _ K0 EC) as [[t X] Y]. destruct K0 as [[names L] O].
  destruct (copy_params_spec _ _ _ _ EC (locs_of _ _ O) (o_wf _ _ O)) as (_ & _ & _ & _ & _ & _ & _ & _ & _ & KK & _).
  rewrite EP in *. set (d := ps_items (P_params P)) in *. clear ps EP.
  assert (all_storable h1 d) as S1.
  { intros k Hk. destruct (ST k Hk) as (p & b & G & V). exists p, b. split; auto. unfold get_param in *. destruct (dget d k) as [l|]; [|discriminate]. rewrite X, nth_error_app1; auto. apply nth_error_Some. congruence. }
  destruct (d2v _ _ _ _ _ L S1) as (v & EV & _ & HV & _). destruct (names_ok _ _ _ _ L) as (nm0 & EN & _).
  unfold rvmodel_init, vector_init. fold d. rewrite EV. cbn [bind]. rewrite EN. cbn [bind m_vector].
  set (idx := init_index_dict (ps_num (P_params P)) (dkeys d)) in *. set (vec := mkVector idx v nm0).
  assert (forall k, In k (dkeys d) -> is_extra k = true -> exists i, dget idx k = Some i) as IX.
  { intros k Hk He. unfold idx. rewrite (index_extra _ _ _ (l_nodup _ _ _ _ L) Hk He). eauto. }
  destruct (loop_complete argsort (fun _ => True) P ip h1 (P_params P) vec HN EV EN pre []) as (likes' & EF & _).
  { intros n Hn. destruct (HI n Hn) as ((o & Ho & Et) & Kg & Kj).
    split; [exact I|]. split. { intro Z. assert (In o (rows_for (P_data P) n)) as Hr by (apply rows_in; auto). rewrite Z in Hr. destruct Hr. }
    split; [exact Kg|]. split; [exact Kj|]. split; [apply IX; auto|]. split; [apply IX; auto|]. fold d.
    split.
    - destruct (dget d ("gamma_" ++ n)) as [l|] eqn:E; [now apply KK|now apply dget_none in E].
    - destruct (dget d ("jit_" ++ n)) as [l|] eqn:E; [now apply KK|now apply dget_none in E]. }
  { intros x []. }
  rewrite EI, VConv.for_each_app, EF. cbn [bind for_each]. unfold add_inst at 1.
  assert (rows_for (P_data P) nm = []) as ->; [|reflexivity].
  destruct (rows_for (P_data P) nm) as [|o r] eqn:ER; auto. exfalso. apply NR. exists o. apply rows_in. rewrite ER. now left.
Qed.
