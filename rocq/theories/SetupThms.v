(** C55: initialize_posterior, radvel/utils.py:50-143. *)
From Coq Require Import Reals String Ascii Arith Bool Lia Permutation List.
From Verif Require Import Py PyFloat PyFacts Params ParamsProofs ParamsSpec VectorProofs Basis BasisProofs RVModel Likelihood LikeBuild LikeMore ExLike Gp Setup SetupSpec SetupProofs.
Import ListNotations.
Open Scope string_scope.

Lemma not_gamma_planet p n : In p PNAMES -> forall k, inst k = true -> key p n <> k.
Proof. intros H k Hk E. rewrite <- E, inst_planet in Hk; [discriminate|exact H]. Qed.

Lemma logjit_not_planet k p n : logjit_key k -> In p PNAMES -> key p n <> k.
Proof.
  intros [s ->]. unfold PNAMES, key. intros H E.
  repeat (destruct H as [<-|H]; [discriminate E|]). destruct H.
Qed.

Lemma replace_inst k : logjit_key k -> inst (replace_logjit k) = true.
Proof. intros [s ->]. reflexivity. Qed.

Lemma layout_convert num b names keys keys' k : layout num b names keys -> logjit_key k -> NoDup keys' ->
  (forall k', In k' keys' <-> k' <> k /\ (In k' keys \/ k' = replace_logjit k)) -> layout num b names keys'.
Proof.
  intros L K N H. split; [apply L|exact N| |].
  - intros n p Hn Hp. apply H. split; [|left; now apply (l_has _ _ _ _ L)].
    apply logjit_not_planet; auto. eapply fit_pnames; [apply L|exact Hp].
  - intros n p Hn Hp Hk. apply H in Hk. destruct Hk as [_ [Hk|Hk]]; [eapply (l_only _ _ _ _ L); eauto|].
    exfalso. revert Hk. apply not_gamma_planet; [exact Hp|]. now apply replace_inst.
Qed.

Lemma locs_of h d : objects_ok h d -> locs_ok h d.
Proof. intros O k l H. apply (o_alloc _ _ O k). apply in_dget; [apply O|exact H]. Qed.

(** the parameters after the conversion are again well formed *)
Lemma loop_stage h P h0 d0 : params_ok h (P_params P) ->
  logjit_loop (dkeys (ps_items (P_params P))) false h (ps_items (P_params P)) = Ok (h0, d0) ->
  params_ok h0 (with_items (P_params P) d0) /\ exists t, h0 = (h ++ t)%list.
Proof.
  intros [[names L] O] H. apply loop_ok in H. destruct H as [(_ & -> & ->)|(pre & k & EK & _ & K & C)].
  - split; [split; [exists names; exact L|exact O]|]. exists []. now rewrite app_nil_r.
  - unfold convert_logjit in C. destruct (get_param h (ps_items (P_params P)) k) as [p|] eqn:G; [|discriminate].
    destruct (p_value p) as [x|]; [|discriminate]. unfold set_new in C. cbn [fst snd] in C.
    set (d := ps_items (P_params P)) in *. set (q := mkParam _ _ _ _) in *. inversion C; subst h0 d0; clear C.
    set (k2 := replace_logjit k) in *. assert (k2 <> k) as NE.
    { intro E. destruct K as [s E2]. unfold k2 in E. rewrite E2 in E. discriminate E. }
    assert (NoDup (dkeys (dset d k2 (length h)))) as N2 by (apply wf_dset, O).
    assert (NoDup (dkeys (dremove (dset d k2 (length h)) k))) as N3 by now apply wf_dremove.
    assert (forall k' l, dget (dremove (dset d k2 (length h)) k) k' = Some l -> k' = k2 /\ l = length h \/ dget d k' = Some l) as Q.
    { intros k' l Hl. destruct (String.eqb_spec k' k) as [->|N].
      - assert (dget (dremove (dset d k2 (length h)) k) k = None) as E0 by now apply dget_dremove_same. congruence.
      - rewrite dget_dremove_other in Hl by auto. destruct (String.eqb_spec k' k2) as [->|N'].
        + rewrite dget_dset_same in Hl. left. split; congruence.
        + rewrite dget_dset_other in Hl by auto. auto. }
    split; [|eauto]. split.
    + exists names. apply (layout_convert _ _ _ (dkeys d) _ k L K N3).
      intro k'. split.
      * intro Hk. split.
        { intros ->. apply (dget_none (dremove (dset d k2 (length h)) k) k); [now apply dget_dremove_same|exact Hk]. }
        destruct (dget (dremove (dset d k2 (length h)) k) k') as [l|] eqn:E; [|now apply dget_none in E].
        apply Q in E. destruct E as [[-> _]|E]; [now right|left; eapply dget_key; eauto].
      * intros [NK Hk]. assert (dget (dremove (dset d k2 (length h)) k) k' = dget (dset d k2 (length h)) k') as EQ by now apply dget_dremove_other.
        destruct (String.eqb_spec k' k2) as [->|N'].
        -- rewrite dget_dset_same in EQ. eapply dget_key; eauto.
        -- rewrite dget_dset_other in EQ by auto. destruct Hk as [Hk|Hk]; [|contradiction].
           destruct (dget d k') as [l|] eqn:E; [eapply dget_key; eauto|now apply dget_none in E].
    + split; [exact N3| |].
      * intros k' l Hl. rewrite app_length. cbn. apply Q in Hl. destruct Hl as [[_ ->]|Hl]; [lia|].
        apply (o_alloc _ _ O) in Hl. lia.
      * intros k1 k3 l H1 H3. apply Q in H1, H3. destruct H1 as [[-> E1]|H1], H3 as [[-> E3]|H3]; auto.
        -- apply (o_alloc _ _ O) in H3. lia.
        -- apply (o_alloc _ _ O) in H1. lia.
        -- eapply (o_noshare _ _ O); eauto.
Qed.

Lemma copy_facts h0 ps h1 ip : params_ok h0 ps -> copy_params h0 ps = (h1, ip) ->
  (exists t, h1 = (h0 ++ t)%list) /\ (forall k l, inst k = true -> dget (ps_items ip) k = Some l -> dget (ps_items ps) k = Some l).
Proof.
  intros [[names L] O] E.
  destruct (copy_params_spec _ _ _ _ E (locs_of _ _ O) (o_wf _ _ O)) as (A & B & C & D & F & G & H & I & J & K & M & N & _).
  split; [exact B|]. intros k l Hi Hk.
  assert (In k (dkeys (ps_items ps)) \/ In k (default_keys (ps_num ps) (split (b_name (ps_basis ps))))) as [Hin|Hin]
    by (apply J; eapply dget_key; eauto).
  - destruct (dget (ps_items ps) k) as [l'|] eqn:E'; [|now apply dget_none in E']. apply K in E'. congruence.
  - exfalso. rewrite (fit_names _ _ (l_fit _ _ _ _ L)) in Hin. unfold default_keys in Hin.
    apply in_flat_map in Hin. destruct Hin as (n & _ & Hin). apply in_map_iff in Hin. destruct Hin as (p & Ek & Hp).
    revert Ek. apply not_gamma_planet; auto. eapply fit_pnames; [apply L|exact Hp].
Qed.

Section Thm.
  Variable argsort : list R -> list nat.
  Hypothesis argsort_perm : forall x, Permutation (argsort x) (seq 0 (length x)).

  (** one instrument *)
  Lemma add_inst_inv P decorr vars ip d0 b nm b' :
    (forall k l, inst k = true -> dget (ps_items ip) k = Some l -> dget d0 k = Some l) ->
    (forall k l, dget d0 k = Some l -> dget (ps_items (bl_params b)) k = Some l) ->
    add_inst argsort P decorr vars ip b nm = Ok b' ->
    rows_for (P_data P) nm <> [] /\ In ("gamma_" ++ nm) (dkeys d0) /\ In ("jit_" ++ nm) (dkeys d0) /\
    exists vecs ty h1 ps1 vec1 l,
      (if decorr then decorr_vectors (rows_for (P_data P) nm) vars else Ok []) = Ok vecs /\ choose_type P nm = Ok ty /\
      make_like argsort ty (bl_heap b) (bl_params b) (bl_vector b) (rows_for (P_data P) nm) nm vars vecs = Ok (h1, ps1, vec1, l) /\
      b' = mkBuilding h1 ps1 vec1 (dset (bl_likes b) nm (ty, l)).
  Proof.
    intros HI HB E. unfold add_inst in E. destruct (rows_for (P_data P) nm) as [|o r] eqn:ER; [discriminate|].
    rewrite <- ER in *. split; [congruence|].
    destruct (if decorr then decorr_vectors (rows_for (P_data P) nm) vars else Ok []) as [vecs|] eqn:EV; [|discriminate]. cbn [bind] in E.
    destruct (choose_type P nm) as [ty|] eqn:ET; [|discriminate]. cbn [bind] in E.
    destruct (make_like _ _ _ _ _ _ _ _ _) as [[[[h1 ps1] vec1] l]|] eqn:EM; [|discriminate]. cbn [bind] in E.
    destruct (make_like_ext argsort argsort_perm _ _ _ _ _ _ _ _ _ _ _ _ EM) as (_ & HX & _).
    assert (forall k l, inst k = true -> dget (ps_items ip) k = Some l -> dget (ps_items ps1) k = Some l /\ In k (dkeys d0)) as HS.
    { intros k i Hk Hi. apply HI in Hi; auto. split; [now apply HX, HB|eapply dget_key; eauto]. }
    unfold set_item, dget_res in E.
    destruct (dget (ps_items ip) ("gamma_" ++ nm)) as [lg|] eqn:Eg; [|discriminate]. cbn [bind with_items ps_items] in E.
    destruct (dget (ps_items ip) ("jit_" ++ nm)) as [lj|] eqn:Ej; [|discriminate]. cbn [bind with_items ps_items ps_basis ps_num ps_pp ps_letters] in E.
    destruct (HS ("gamma_" ++ nm) _ eq_refl Eg) as [Dg Kg]. destruct (HS ("jit_" ++ nm) _ eq_refl Ej) as [Dj Kj].
    split; [exact Kg|]. split; [exact Kj|]. exists vecs, ty, h1, ps1, vec1, l. split; auto. split; auto. split; auto.
    unfold with_items in E. cbn [ps_items ps_basis ps_num ps_pp ps_letters] in E.
    rewrite (dset_same_value _ _ _ Dg), (dset_same_value _ _ _ Dj) in E. destruct ps1. cbn in E. congruence.
  Qed.

  (** the loop over the instruments *)
  Record inv (P : setup) (decorr : bool) (vars : list string) (h1 : heap) (d0 : dict nat) (done : list string) (b : building) : Prop := {
    in_heap : exists t, bl_heap b = (h1 ++ t)%list;
    in_keep : forall k l, dget d0 k = Some l -> dget (ps_items (bl_params b)) k = Some l;
    in_new : forall k, In k (dkeys (ps_items (bl_params b))) -> In k (dkeys d0) \/
               exists v nm, In nm done /\ choose_type P nm = Ok RVLike /\ In v vars /\ k = "c1_" ++ v ++ "_" ++ nm;
    in_data : forall nm, In nm done -> rows_for (P_data P) nm <> [] /\ In ("gamma_" ++ nm) (dkeys d0) /\ In ("jit_" ++ nm) (dkeys d0);
    in_likes : forall nm ty l, dget (bl_likes b) nm = Some (ty, l) ->
               choose_type P nm = Ok ty /\ made nm (rows_for (P_data P) nm) ty l /\
               l_decorr l = match ty with RVLike => map (fun v => "c1_" ++ v ++ "_" ++ nm) vars | _ => [] end;
    in_keys : forall nm, In nm (dkeys (bl_likes b)) <-> In nm done;
    in_wf : NoDup (dkeys (bl_likes b));
    in_order : NoDup done -> dkeys (bl_likes b) = done }.

  Lemma loop_inv P decorr vars ip h1 d0 : (forall k l, inst k = true -> dget (ps_items ip) k = Some l -> dget d0 k = Some l) ->
    forall nms done b b', inv P decorr vars h1 d0 done b -> for_each nms (add_inst argsort P decorr vars ip) b = Ok b' ->
    inv P decorr vars h1 d0 (done ++ nms) b'.
  Proof.
    intro HI. induction nms as [|nm nms IH]; intros done b b' I E.
    - cbn in E. inversion E; subst. now rewrite app_nil_r.
    - cbn [for_each] in E. destruct (add_inst argsort P decorr vars ip b nm) as [b1|] eqn:E1; [|discriminate]. cbn [bind] in E.
      replace (done ++ nm :: nms)%list with ((done ++ [nm]) ++ nms)%list by (rewrite <- app_assoc; reflexivity).
      apply (IH _ b1); auto. destruct I as [A B C D F G W O].
      destruct (add_inst_inv _ _ _ _ _ _ _ _ HI B E1) as (R & Kg & Kj & vecs & ty & h2 & ps1 & vec1 & l & _ & ET & EM & ->).
      destruct (make_like_ext argsort argsort_perm _ _ _ _ _ _ _ _ _ _ _ _ EM) as ([x Hx] & HX & HN & HM & HD).
      assert (forall z, In z (dkeys (dset (bl_likes b) nm (ty, l))) <-> In z (dkeys (bl_likes b)) \/ z = nm) as Q.
      { intro z. rewrite dkeys_dset. destruct (dmem (bl_likes b) nm) eqn:EM'.
        - apply dmem_in in EM'. split; [auto|]. intros [Hz|Hz]; [auto|now subst z].
        - rewrite in_app_iff. cbn. split; intros [|]; auto. destruct H; [auto|contradiction]. }
      split; cbn [bl_heap bl_params bl_vector bl_likes].
      + destruct A as [t A]. exists (t ++ x)%list. now rewrite Hx, A, app_assoc.
      + auto.
      + intros k Hk. apply HN in Hk. destruct Hk as [Hk|[Hk|[Hk|(v & Hty & Hv & Hk)]]].
        * apply C in Hk. destruct Hk as [|(v & n' & H1 & H2)]; auto. right. exists v, n'. split; auto. apply in_or_app; now left.
        * subst k. now left.
        * subst k. now left.
        * subst k ty. right. exists v, nm. split; [apply in_or_app; right; now left|]. auto.
      + intros n' Hn. apply in_app_or in Hn. destruct Hn as [|[<-|[]]]; auto.
      + intros n' ty' l' Hl. destruct (String.eqb_spec n' nm) as [->|N].
        * rewrite dget_dset_same in Hl. inversion Hl; subst. auto.
        * rewrite dget_dset_other in Hl by auto. auto.
      + intro n'. rewrite Q, G, in_app_iff. cbn. split; intros [|]; auto. destruct H; [auto|contradiction].
      + now apply wf_dset.
      + intro ND. assert (NoDup done /\ ~ In nm done) as [ND1 NI].
        { apply NoDup_remove in ND. rewrite app_nil_r in ND. exact ND. }
        rewrite dkeys_dset, (O ND1). destruct (dmem (bl_likes b) nm) eqn:EM'; auto.
        apply dmem_in, G in EM'. contradiction.
  Qed.

  Lemma init_steps P decorr h r : initialize_posterior argsort P decorr h = Ok r ->
    b_name (ps_basis (P_params P)) = P_fitting_basis P /\
    exists vars h0 d0 h1 ip vec b v,
      (if decorr then P_decorr_vars P = Some vars else vars = []) /\
      logjit_loop (dkeys (ps_items (P_params P))) false h (ps_items (P_params P)) = Ok (h0, d0) /\
      copy_params h0 (with_items (P_params P) d0) = (h1, ip) /\
      vector_init h1 (with_items (P_params P) d0) = Ok vec /\
      for_each (P_instnames P) (add_inst argsort P decorr vars ip) (mkBuilding h1 (with_items (P_params P) d0) vec []) = Ok b /\
      composite_init (bl_heap b) (v_vector (bl_vector b)) (map (fun x => mkCM (snd (snd x)) (ps_items (bl_params b)) 0) (bl_likes b)) = Ok (i_comp r) /\
      dict_to_vector (bl_heap b) (ps_items (bl_params b)) (v_indices (bl_vector b)) = Ok v /\
      i_heap r = bl_heap b /\ i_params r = bl_params b /\ i_likes r = bl_likes b /\
      i_vector r = mkVector (v_indices (bl_vector b)) v (v_names (bl_vector b)).
  Proof.
    intro E. unfold initialize_posterior in E.
    destruct (String.eqb_spec (b_name (ps_basis (P_params P))) (P_fitting_basis P)) as [EB|]; [|discriminate]. cbn [negb] in E.
    split; [exact EB|].
    destruct (if decorr then match P_decorr_vars P with Some l => Ok l | None => Err PlainException end else Ok []) as [vars|] eqn:EV; [|discriminate]. cbn [bind] in E.
    destruct (logjit_loop _ _ _ _) as [[h0 d0]|] eqn:EL; [|discriminate]. cbn [bind] in E.
    destruct (copy_params h0 _) as [h1 ip] eqn:EC. unfold rvmodel_init in E.
    destruct (vector_init h1 _) as [vec|] eqn:EI; [|discriminate]. cbn [bind m_vector] in E.
    destruct (for_each _ _ _) as [b|] eqn:EF; [|discriminate]. cbn [bind] in E.
    destruct (composite_init _ _ _) as [c|] eqn:ECo; [|discriminate]. cbn [bind] in E.
    destruct (dict_to_vector _ _ _) as [v|] eqn:ED; [|discriminate]. cbn [bind] in E. inversion E; subst; clear E.
    exists vars, h0, d0, h1, ip, vec, b, v. split.
    { destruct decorr; [|congruence]. destruct (P_decorr_vars P); congruence. }
    cbn [i_heap i_params i_likes i_vector i_comp]. auto 12.
  Qed.

  Lemma init_inv P decorr h r : params_ok h (P_params P) -> initialize_posterior argsort P decorr h = Ok r ->
    exists vars h0 d0 h1 vec b v,
      (if decorr then P_decorr_vars P = Some vars else vars = []) /\
      logjit_loop (dkeys (ps_items (P_params P))) false h (ps_items (P_params P)) = Ok (h0, d0) /\
      params_ok h0 (with_items (P_params P) d0) /\ (exists t, h1 = (h0 ++ t)%list) /\
      vector_init h1 (with_items (P_params P) d0) = Ok vec /\
      inv P decorr vars h1 d0 (P_instnames P) b /\
      composite_init (bl_heap b) (v_vector (bl_vector b)) (map (fun x => mkCM (snd (snd x)) (ps_items (bl_params b)) 0) (bl_likes b)) = Ok (i_comp r) /\
      dict_to_vector (bl_heap b) (ps_items (bl_params b)) (v_indices (bl_vector b)) = Ok v /\
      i_heap r = bl_heap b /\ i_params r = bl_params b /\ i_likes r = bl_likes b /\
      i_vector r = mkVector (v_indices (bl_vector b)) v (v_names (bl_vector b)).
  Proof.
    intros K E. destruct (init_steps _ _ _ _ E) as (EB & vars & h0 & d0 & h1 & ip & vec & b & v & H1 & H2 & H3 & H4 & H5 & H6 & H7 & H8 & H9 & H10 & H11).
    destruct (loop_stage _ _ _ _ K H2) as [K0 _]. destruct (copy_facts _ _ _ _ K0 H3) as [X Y].
    exists vars, h0, d0, h1, vec, b, v. split; [exact H1|]. split; [exact H2|]. split; [exact K0|]. split; [exact X|]. split; [exact H4|].
    split; [|auto 10].
    assert (inv P decorr vars h1 d0 [] (mkBuilding h1 (with_items (P_params P) d0) vec [])) as I0.
    { split; cbn; auto; try tauto; try constructor; try discriminate.
      exists []. now rewrite app_nil_r. }
    exact (loop_inv P decorr vars ip h1 d0 Y _ [] _ _ I0 H5).
  Qed.
End Thm.
