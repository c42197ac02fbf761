(** C55: a complete setup file with Gaussian processes is accepted. *)
From Coq Require Import Reals String Ascii Arith Bool Lia Permutation List.
From Verif Require Import Py PyFloat PyFacts Params ParamsProofs ParamsSpec VectorProofs Basis BasisProofs RVModel Likelihood LikeBuild LikeMore ExLike Gp Setup SetupSpec SetupProofs SetupThms VConv SetupHyper SetupMain SetupGpSpec.
Import ListNotations.
Open Scope string_scope.

Lemma has_sub_in w s : has_sub w s = true -> contains w s.
Proof.
  induction s as [|c s IH]; cbn [has_sub]; intro H; apply orb_prop in H as [H|H]; try discriminate.
  - apply prefix_split in H as (r & E). now exists "", r.
  - apply prefix_split in H as (r & E). now exists "", r.
  - destruct (IH H) as (a & b & ->). now exists (String c a), b.
Qed.
Lemma no_sub w s : ~ contains w s -> has_sub w s = false.
Proof. intro N. destruct (has_sub w s) eqn:E; [|reflexivity]. now destruct N; apply has_sub_in. Qed.
Lemma prefix_any p s : String.prefix p (p ++ s) = true.
Proof. induction p as [|c p IH]; [now destruct s|]. cbn. destruct (ascii_dec c c); [exact IH|congruence]. Qed.
Lemma slots_has kind p s : In p (needed kind) -> ~ contains "length" s -> In p (slots kind (p ++ "_" ++ s)).
Proof.
  intros H N. apply no_sub in N.
  assert (has_sub "length" ("gp_per" ++ "_" ++ s) = false) as NP by (cbn [append has_sub]; rewrite N; reflexivity).
  destruct kind; cbn [needed] in H; repeat (destruct H as [<-|H]; [cbn [slots concat]; unfold starts; rewrite ?NP, ?prefix_any; repeat (apply in_or_app; first [now (left; left) | right])|]); try (now destruct H).
Qed.
Lemma slots_self kind p : In p (needed kind) -> In p (slots kind p).
Proof. intro H. destruct kind; cbn [needed] in H; repeat (destruct H as [<-|H]; [cbn; tauto|]); destruct H. Qed.

Lemma in_dset {V} (h : dict V) s x k : In k (dkeys h) \/ k = s -> In k (dkeys (dset h s x)).
Proof.
  intro H. rewrite dkeys_dset. destruct (dmem h s) eqn:E.
  - destruct H as [H| ->]; [exact H|]. now apply dmem_in.
  - apply in_or_app. destruct H as [H| ->]; [now left|right; now left].
Qed.
Lemma fold_grows {V} (x : V) l : forall h k, In k (dkeys h) \/ In k l -> In k (dkeys (fold_left (fun h s => dset h s x) l h)).
Proof.
  induction l as [|a l IH]; intros h k H; [destruct H as [H|[]]; exact H|]. cbn. apply IH. destruct H as [H|[<-|H]].
  - left. apply in_dset. now left. - left. apply in_dset. now right. - now right.
Qed.
Lemma slots_grow {V} (f : string -> list string) (g : string -> option V) l : forall h k,
  In k (dkeys h) \/ (exists par x, In par l /\ g par = Some x /\ In k (f par)) ->
  In k (dkeys (fold_left (fun h par => match g par with Some x => fold_left (fun h s => dset h s x) (f par) h | None => h end) l h)).
Proof.
  induction l as [|a l IH]; intros h k H; [destruct H as [H|(? & ? & [] & _)]; exact H|]. cbn. apply IH.
  destruct H as [H|(par & x & [<-|H] & G & K)].
  - left. destruct (g a); [apply fold_grows; now left|exact H].
  - left. rewrite G. apply fold_grows. now right.
  - right. eauto.
Qed.
Lemma loop_has {V} (h : dict V) l : (forall s, In s l -> In s (dkeys h)) -> for_each l (fun _ s => do _ <- dget_res h s; Ok tt) tt = Ok tt.
Proof.
  induction l as [|a l IH]; intro H; [reflexivity|]. cbn. unfold dget_res. destruct (dget h a) as [x|] eqn:E.
  - cbn. apply IH. intros s S. apply H. now right.
  - apply dget_none in E. destruct E. apply H. now left.
Qed.
(** names that are keys have values *)
Lemma values_of (values : dict (option R)) names : (forall s, In s names -> In s (dkeys values)) ->
  exists hp, map_res (fun s => do x <- dget_res values s; Ok (s, x)) names = Ok hp /\ map fst hp = names.
Proof.
  induction names as [|a l IH]; intro H; [now exists []|]. cbn [map_res]. unfold dget_res at 1.
  destruct (dget values a) as [x|] eqn:E; [|apply dget_none in E; destruct E; apply H; now left].
  destruct IH as (hp & M & F); [intros s S; apply H; now right|]. cbn [bind]. rewrite M. exists ((a, x) :: hp). split; [reflexivity|]. cbn. now rewrite F.
Qed.
Lemma values_of' (values : dict (option R)) names : (forall s, In s names -> In s (dkeys values)) ->
  exists hp, map_res (fun s => dget_res values s) names = Ok hp.
Proof.
  induction names as [|a l IH]; intro H; [now exists []|]. cbn [map_res]. unfold dget_res at 1.
  destruct (dget values a) as [x|] eqn:E; [|apply dget_none in E; destruct E; apply H; now left].
  destruct IH as (hp & M); [intros s S; apply H; now right|]. cbn [bind]. rewrite M. now exists (x :: hp).
Qed.
Lemma values_all h d k : (forall k l, dget d k = Some l -> (l < length h)%nat) -> NoDup (dkeys d) -> In k (dkeys d) -> In k (dkeys (param_values h d)).
Proof.
  intros A ND H. assert (exists l, dget d k = Some l) as (l & D). { destruct (dget d k) eqn:E; [eauto|now apply dget_none in E]. }
  pose proof (A k l D) as L. apply nth_error_Some in L. destruct (nth_error h l) as [p|] eqn:E; [|congruence].
  unfold param_values, dkeys. apply in_map_iff. exists (k, p_value p). split; [reflexivity|]. apply in_flat_map. exists (k, l). split; [now apply dget_in|].
  cbn [snd fst]. rewrite E. now left.
Qed.
Lemma kernel_accepts kind (hp : dict (option R)) : named_for (dkeys hp) (needed kind) -> exists k, kernel_init kind hp = Ok k.
Proof.
  intros (ND & L & H). unfold kernel_init. rewrite L, Nat.eqb_refl. rewrite loop_has; [cbn; eauto|]. intros p Hp. apply slots_grow. right.
  assert (exists par, In par (dkeys hp) /\ In p (slots kind par)) as (par & I & S).
  { destruct (H p Hp) as [I|(s & I & N)]; [exists p; split; [exact I|now apply slots_self]|]. exists (p ++ "_" ++ s). split; [exact I|now apply slots_has]. }
  destruct (dget hp par) as [x|] eqn:E; [|now apply dget_none in E]. eauto.
Qed.
Lemma cel_accepts names : named_for names ["gp_B"; "gp_C"; "gp_L"; "gp_Prot"] -> celerite_kernel_init names = Ok tt.
Proof.
  intros (_ & _ & H). unfold celerite_kernel_init. set (h := fold_left (fun h par => fold_left (fun h s => dset h s tt) (celerite_slots par) h) names ([] : dict unit)).
  assert (NoDup (dkeys h)) as ND.
  { unfold h. clear. assert (forall l (d : dict unit), NoDup (dkeys d) -> NoDup (dkeys (fold_left (fun h s => dset h s tt) l d))) as A.
    { intro l. induction l as [|a l IH]; intros d H; [exact H|]. cbn. apply IH. now apply wf_dset. }
    assert (forall l (d : dict unit), NoDup (dkeys d) -> NoDup (dkeys (fold_left (fun h par => fold_left (fun h s => dset h s tt) (celerite_slots par) h) l d))) as B.
    { intro l. induction l as [|a l IH]; intros d H; [exact H|]. cbn [fold_left]. apply IH. now apply A. }
    apply B. constructor. }
  assert (incl (dkeys h) ["gp_B"; "gp_C"; "gp_L"; "gp_Prot"]) as I1.
  { intros k Hk. apply fold_slots' in Hk as [[]|(par & _ & Hk)]. unfold celerite_slots in Hk. apply filter_In in Hk. tauto. }
  assert (incl ["gp_B"; "gp_C"; "gp_L"; "gp_Prot"] (dkeys h)) as I2.
  { intros p Hp. unfold h. apply (slots_grow celerite_slots (fun _ => Some tt)). right.
    destruct (H p Hp) as [I|(s & I & _)].
    - exists p, tt. split; [exact I|]. split; [reflexivity|]. unfold celerite_slots. apply filter_In. split; [exact Hp|]. destruct Hp as [<-|[<-|[<-|[<-|[]]]]]; reflexivity.
    - exists (p ++ "_" ++ s), tt. split; [exact I|]. split; [reflexivity|]. unfold celerite_slots. apply filter_In. split; [exact Hp|]. apply prefix_any. }
  assert (length (dkeys h) = 4%nat) as ->; [|reflexivity].
  pose proof (NoDup_incl_length ND I1) as A. assert (NoDup ["gp_B"; "gp_C"; "gp_L"; "gp_Prot"]) as N4 by (repeat constructor; cbn; intuition discriminate).
  pose proof (NoDup_incl_length N4 I2) as B. cbn in A, B. lia.
Qed.

Section Complete.
  Variable argsort : list R -> list nat.

  Definition finishes (ty : liketype) (h : heap) (ps : params) : Prop :=
    forall l, exists l1, gp_finish argsort ty h ps l = Ok l1 /\ l_indices l1 = l_indices l /\ l_gamma l1 = l_gamma l.
  Lemma process_finishes P nm h : process_for P nm -> (forall k l, dget (ps_items (P_params P)) k = Some l -> (l < length h)%nat) -> NoDup (dkeys (ps_items (P_params P))) ->
    exists ty, choose_type P nm = Ok ty /\ ty <> RVLike /\ finishes ty h (P_params P).
  Proof.
    intros (hn & names & k & pres & EH & EN & EK & T & NF & IN) A ND. unfold choose_type. rewrite EH. unfold dget_res at 1. rewrite EN. cbn [bind].
    assert (forall s, In s names -> In s (dkeys (param_values h (ps_items (P_params P))))) as VA by (intros s S; apply values_all; auto).
    assert (exists kind, k <> "Celerite" -> kernel_of k = Some kind /\ needed kind = pres) as (kind & KD).
    { cbn in T. destruct T as [T|[T|[T|[T|[]]]]]; injection T as <- <-; [exists SqExp|exists Per|exists QuasiPer|exists SqExp]; intro Z; try (now split); now destruct Z. }
    assert (k = "Celerite" -> pres = ["gp_B"; "gp_C"; "gp_L"; "gp_Prot"]) as KC.
    { intros ->. cbn in T. destruct T as [T|[T|[T|[T|[]]]]]; try discriminate. now injection T as <-. }
    assert (k <> "Celerite" -> finishes (GPLike k names) h (P_params P)) as F1.
    { intros NC l. destruct (KD NC) as [KO KN]. cbn [gp_finish]. rewrite KO. unfold gp_init.
      destruct (values_of _ _ VA) as (hp & M & MF). rewrite M. cbn [bind].
      assert (dkeys hp = names) as DK by exact MF. rewrite dupdate_empty by (unfold wf_dict; rewrite DK; apply NF).
      destruct (kernel_accepts kind hp) as (ks & ->); [now rewrite DK, KN|]. cbn [bind]. exists l. now split. }
    assert (k = "Celerite" -> finishes (CeleriteLike names) h (P_params P)) as F2.
    { intros E l. cbn [gp_finish]. destruct (values_of' _ _ VA) as (hp & M). rewrite M. cbn [bind]. rewrite cel_accepts by now rewrite <- (KC E).
      cbn [bind]. eexists. split; [reflexivity|]. now split. }
    unfold kernel_for in EK. destruct (P_kernel_name P) as [kn|].
    - unfold dget_res. rewrite EK. cbn [bind]. destruct (String.eqb_spec k "Celerite") as [E|NC]; eexists; (split; [reflexivity|]); split; try discriminate; auto.
    - subst k. eexists. split; [reflexivity|]. split; [discriminate|]. apply F1. discriminate.
  Qed.

  Lemma loop_complete_gp (Q : string -> Prop) P ip h ps vec :
    dict_to_vector h (ps_items ps) (v_indices vec) = Ok (v_vector vec) -> vector_names (ps_items ps) (v_indices vec) = Ok (v_names vec) ->
    forall nms likes, (forall nm, In nm nms -> Q nm /\ rows_for (P_data P) nm <> [] /\
       In ("gamma_" ++ nm) (dkeys (ps_items ps)) /\ In ("jit_" ++ nm) (dkeys (ps_items ps)) /\
       (exists gi, dget (v_indices vec) ("gamma_" ++ nm) = Some gi) /\ (exists ji, dget (v_indices vec) ("jit_" ++ nm) = Some ji) /\
       dget (ps_items ip) ("gamma_" ++ nm) = dget (ps_items ps) ("gamma_" ++ nm) /\
       dget (ps_items ip) ("jit_" ++ nm) = dget (ps_items ps) ("jit_" ++ nm) /\
       exists ty, choose_type P nm = Ok ty /\ ty <> RVLike /\ finishes ty h ps) ->
    (forall x, In x likes -> l_indices (snd (snd x)) = v_indices vec /\ exists nm, l_gamma (snd (snd x)) = "gamma_" ++ nm /\ Q nm) ->
    exists likes', for_each nms (add_inst argsort P false [] ip) (mkBuilding h ps vec likes) = Ok (mkBuilding h ps vec likes') /\
      (forall x, In x likes' -> l_indices (snd (snd x)) = v_indices vec /\ exists nm, l_gamma (snd (snd x)) = "gamma_" ++ nm /\ Q nm) /\
      (nms <> [] \/ likes <> [] -> likes' <> []).
  Proof.
    intros V N. induction nms as [|nm nms IH]; intros likes H HL.
    - exists likes. cbn. split; auto. split; auto. intros [|]; congruence.
    - destruct (H nm (or_introl eq_refl)) as (HQ & R & Kg & Kj & [gi Ig] & [ji Ij] & Eg & Ej & ty & CT & NR & FI).
      cbn [for_each]. unfold add_inst at 1. destruct (rows_for (P_data P) nm) as [|o rr] eqn:ER; [congruence|]. rewrite <- ER. cbn [bind].
      rewrite CT. cbn [bind bl_heap bl_params bl_vector].
      assert (exists l1, make_like argsort ty h ps vec (rows_for (P_data P) nm) nm [] [] = Ok (h, ps, vec, l1) /\ l_indices l1 = v_indices vec /\ l_gamma l1 = "gamma_" ++ nm) as (x & -> & X1 & X2).
      { unfold make_like. rewrite (rvlike_same h ps vec _ _ _ nm gi ji) by auto. cbn [bind].
        destruct (FI (mkLike (map o_time (rows_for (P_data P) nm)) (map o_vel (rows_for (P_data P) nm)) (map o_err (rows_for (P_data P) nm)) ("gamma_" ++ nm) ("jit_" ++ nm) gi ji nm (map (fun _ => nm) (map o_time (rows_for (P_data P) nm))) [] [] ps (v_indices vec))) as (l1 & F & A & B).
        destruct ty; [congruence| |]; rewrite F; cbn [bind]; exists l1; split; auto. }
      cbn [bind]. unfold set_item, dget_res. rewrite Eg.
      destruct (dget (ps_items ps) ("gamma_" ++ nm)) as [lg|] eqn:Dg; [|now apply dget_none in Dg].
      cbn [bind]. rewrite (dset_same_value _ _ _ Dg). rewrite Ej.
      destruct (dget (ps_items ps) ("jit_" ++ nm)) as [lj|] eqn:Dj; [|now apply dget_none in Dj].
      cbn [bind with_items ps_items ps_basis ps_num ps_pp ps_letters]. rewrite (dset_same_value _ _ _ Dj).
      destruct (IH (dset likes nm (ty, x))) as (likes' & A & B & C).
      + intros; apply H; now right.
      + intros z Hz. assert (forall d : dict (liketype * rvlike), In z (dset d nm (ty, x)) -> In z d \/ z = (nm, (ty, x))) as QQ.
        { induction d as [|[k' v'] d IHd]; cbn; [intros [|[]]; auto|]. destruct (String.eqb_spec nm k') as [->|].
          - cbn. intros [|]; auto. - cbn. intros [|Hd]; auto. destruct (IHd Hd); auto. }
        apply QQ in Hz. destruct Hz as [Hz|Hz]; [auto|]. subst z. cbn. split; [exact X1|]. exists nm. auto.
      + exists likes'. split; [|split; [exact B|]].
        * change (with_items (with_items ps (ps_items ps)) (ps_items ps)) with (mkParams (ps_items ps) (ps_basis ps) (ps_num ps) (ps_pp ps) (ps_letters ps)).
          destruct ps; cbn in *. exact A.
        * intros _. apply C. right. destruct likes as [|[k' v'] ?]; cbn; [discriminate|]. destruct (String.eqb nm k'); discriminate.
  Qed.

  Lemma complete_gp P h : params_ok h (P_params P) -> b_name (ps_basis (P_params P)) = P_fitting_basis P ->
    (forall k, In k (dkeys (ps_items (P_params P))) -> ~ logjit_key k) ->
    (forall k, In k (dkeys (ps_items (P_params P))) -> exists p b, get_param h (ps_items (P_params P)) k = Some p /\ p_vary p = VBool b) ->
    P_instnames P <> [] ->
    (forall nm, In nm (P_instnames P) -> has_rows P nm /\ process_for P nm /\ In ("jit_" ++ nm) (dkeys (ps_items (P_params P))) /\
       exists p x, get_param h (ps_items (P_params P)) ("gamma_" ++ nm) = Some p /\ p_value p = Some x) ->
    exists r, initialize_posterior argsort P false h = Ok r /\ ps_items (i_params r) = ps_items (P_params P) /\
      forall k i p, get_param h (ps_items (P_params P)) k = Some p -> dget (v_indices (i_vector r)) k = Some i ->
        exists row, nth_error (v_vector (i_vector r)) i = Some row /\ r_val row = p_value p /\ p_vary p = VBool (r_vary row).
  Proof.
    intros K EB NL ST NE HI. unfold initialize_posterior. rewrite EB, String.eqb_refl. cbn [negb bind]. rewrite loop_none by auto. cbn [bind].
    set (ps := with_items (P_params P) (ps_items (P_params P))). assert (ps = P_params P) as EP by (unfold ps, with_items; now destruct (P_params P)).
    assert (params_ok h ps) as K0 by now rewrite EP. destruct (copy_params h ps) as [h1 ip] eqn:EC.
    pose proof (copy_facts _ _ _ _ K0 EC) as [[t X] Y]. destruct K0 as [[names L] O].
    destruct (copy_params_spec _ _ _ _ EC (locs_of _ _ O) (o_wf _ _ O)) as (_ & _ & _ & _ & _ & _ & _ & _ & _ & KK & _).
    rewrite EP in *. set (d := ps_items (P_params P)) in *. clear ps EP.
    assert (forall k p, get_param h d k = Some p -> get_param h1 d k = Some p) as GP.
    { intros k p G. unfold get_param in *. destruct (dget d k) as [l|]; [|discriminate]. rewrite X, nth_error_app1; auto. apply nth_error_Some. congruence. }
    assert (all_storable h1 d) as S1.
    { intros k Hk. destruct (ST k Hk) as (p & b & G & V). exists p, b. auto. }
    destruct (d2v _ _ _ _ _ L S1) as (v & EV & _ & HV & _). destruct (names_ok _ _ _ _ L) as (nm0 & EN & _).
    unfold rvmodel_init, vector_init. fold d. rewrite EV. cbn [bind]. rewrite EN. cbn [bind m_vector].
    set (idx := init_index_dict (ps_num (P_params P)) (dkeys d)) in *. set (vec := mkVector idx v nm0).
    assert (forall k, In k (dkeys d) -> is_extra k = true -> exists i, dget idx k = Some i) as IX.
    { intros k Hk He. unfold idx. rewrite (index_extra _ _ _ (l_nodup _ _ _ _ L) Hk He). eauto. }
    destruct (loop_complete_gp (fun nm => In nm (P_instnames P)) P ip h1 (P_params P) vec EV EN (P_instnames P) []) as (likes' & EF & HL & NL').
    { intros nm Hn. destruct (HI nm Hn) as ((o & Ho & Et) & PF & Kj & p & x & Gp & _).
      assert (In ("gamma_" ++ nm) (dkeys d)) as Kg by (unfold get_param in Gp; destruct (dget d ("gamma_" ++ nm)) eqn:E; [eapply dget_key; eauto|discriminate]).
      split; [exact Hn|]. split. { intro Z. assert (In o (rows_for (P_data P) nm)) as Hr by (apply rows_in; auto). rewrite Z in Hr. destruct Hr. }
      split; [exact Kg|]. split; [exact Kj|]. split; [apply IX; auto|]. split; [apply IX; auto|]. fold d.
      split; [|split].
      - destruct (dget d ("gamma_" ++ nm)) as [l|] eqn:E; [now apply KK|now apply dget_none in E].
      - destruct (dget d ("jit_" ++ nm)) as [l|] eqn:E; [now apply KK|now apply dget_none in E].
      - apply process_finishes; [exact PF| |exact (o_wf _ _ O)]. intros k l D. rewrite X, app_length. apply (o_alloc _ _ O) in D. lia. }
    { intros x []. }
    rewrite EF. cbn [bind bl_heap bl_params bl_vector bl_likes].
    destruct (composite_same h1 (v_vector vec) d 0%nat (map (fun x => mkCM (snd (snd x)) (ps_items (P_params P)) 0) likes')) as [c EC2].
    { destruct likes'; [|discriminate]. exfalso. apply NL'; auto. }
    { intros k Hk. destruct (S1 k Hk) as (p & b & G & _). eauto. }
    { intros m Hm. apply in_map_iff in Hm. destruct Hm as (x & <- & Hx). cbn [c_items c_vector_id c_like]. split; [reflexivity|]. split; [reflexivity|].
      destruct (HL x Hx) as (E1 & nm & E2 & Hin). rewrite E1, E2.
      destruct (HI nm Hin) as (_ & _ & _ & p & x0 & Gp & Ex). assert (In ("gamma_" ++ nm) (dkeys d)) as Kg by (unfold get_param in Gp; destruct (dget d ("gamma_" ++ nm)) eqn:E; [eapply dget_key; eauto|discriminate]). destruct (IX ("gamma_" ++ nm) Kg eq_refl) as [i Hi].
      exists i. cbn [v_indices vec]. apply GP in Gp.
      exists x0. split; [exact Hi|]. unfold vget. cbn [v_vector vec]. rewrite (HV _ _ Kg Hi). unfold row_at. rewrite Gp. cbn. now rewrite Ex. }
    rewrite EC2. cbn [bind]. cbn [v_indices vec]. fold d. rewrite EV. cbn [bind].
    eexists. split; [reflexivity|]. cbn [i_params i_vector v_indices v_vector]. split; [reflexivity|].
    intros k i p G Hi. assert (In k (dkeys d)) as Hk by (unfold get_param in G; destruct (dget d k) eqn:E; [eapply dget_key; eauto|discriminate]).
    exists (row_at h1 d k). split; [now apply HV|]. unfold row_at. rewrite (GP _ _ G).
    destruct (ST k Hk) as (p' & bb & G' & V). assert (p' = p) as -> by congruence. cbn. split; auto. now rewrite V.
  Qed.
End Complete.

(** hyper-parameters for some instruments only *)
Lemma mixed_refused (argsort : list R -> list nat) : (forall x, Permutation (argsort x) (seq 0 (length x))) ->
  forall P decorr h hn nm, params_ok h (P_params P) -> P_hnames P = Some hn -> In nm (P_instnames P) -> dget hn nm = None ->
  forall r, initialize_posterior argsort P decorr h <> Ok r.
Proof.
  intros PA P decorr h hn nm K EH I D r E. destruct (one_likelihood argsort PA P decorr h r K E) as (_ & A & _).
  apply A in I. destruct (dget (i_likes r) nm) as [[ty l]|] eqn:G; [|now apply dget_none in G].
  pose proof (class_chosen argsort PA P decorr h r nm ty l K E G) as C. rewrite EH in C. destruct C as (names & C & _). congruence.
Qed.
