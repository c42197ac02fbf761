(** Concrete objects for the examples of PropertiesLike.v: one planet, a trend,
    two instruments (offset of the first marginalised). *)
From Coq Require Import Reals String Arith ZArith Bool Lia Lra List.
From Verif Require Import Py PyFloat PyFacts PyFloatFacts Params ParamsProofs ParamsSpec VectorProofs Kepler Basis RVModel RVModelProofs RvTerm
  Likelihood LikeSpec LikeProofs LikeHist LikeDensity LikeMore LikeBuild LikeAlign BasisModel BasisThms.
Import ListNotations.
Open Scope R_scope.

Definition exl_keys := ["per1"; "tp1"; "e1"; "w1"; "k1"; "dvdt"; "gamma_a"; "jit_a"; "gamma_b"; "jit_b"]%string.
Definition exl_h (x : nat -> R) : heap :=
  map (fun i => mkParam (Some (x i)) (VBool (negb (Nat.eqb i 6))) None (Nat.eqb i 6)) (seq 0 10).
Definition exl_ps : params :=
  mkParams (combine exl_keys (seq 0 10)) (basis_init "per tp e w k" 1) 1 (split "per tp e w k") None.
Definition exl_data (x : nat -> R) (dv : list string) : list dataset :=
  [mkData [x 20; x 21] [x 22; x 23] [x 24; x 25] "_a" dv [("temp"%string, [x 26; x 27])];
   mkData [x 30] [x 31] [x 32] "_b" [] []]%nat.
Definition exl_build (x : nat -> R) (dv : list string) :=
  do vec <- vector_init (exl_h x) exl_ps;
  do (h1, ps1, vec1, ls) <- build_likes (exl_h x) exl_ps vec (exl_data x dv);
  Ok (vec, h1, ps1, vec1, ls).

Lemma exl_built x dv : (dv = [] \/ dv = ["temp"%string]) -> exists vec h1 ps1 vec1 ls,
  vector_init (exl_h x) exl_ps = Ok vec /\ build_likes (exl_h x) exl_ps vec (exl_data x dv) = Ok (h1, ps1, vec1, ls).
Proof. intros [->| ->]; do 5 eexists; split; vm_compute; reflexivity. Qed.

Lemma exl_layout : layout 1 "per tp e w k" ["per"; "tp"; "e"; "w"; "k"]%string (dkeys (ps_items exl_ps)).
Proof.
  split.
  - cbn; tauto.
  - apply nodup_strings. vm_compute. reflexivity.
  - intros n p Hn Hp. assert (n = 1%nat) as -> by lia. cbn in Hp. decompose [or] Hp; try contradiction; subst; vm_compute; tauto.
  - intros n p Hn Hp Hk. assert (n = 1%nat) as -> by lia. cbn in Hp.
    decompose [or] Hp; try contradiction; subst; try (cbn; tauto); exfalso; vm_compute in Hk; intuition discriminate.
Qed.

Definition exl_rows (x : nat -> R) (dv : list string) : list row :=
  match exl_build x dv with Ok (_, _, _, vec1, _) => v_vector vec1 | Err _ => [] end.
Definition exl_likes (x : nat -> R) (dv : list string) : list rvlike :=
  match exl_build x dv with Ok (_, _, _, _, ls) => ls | Err _ => [] end.
Definition exl_fwd (x : nat -> R) (dv : list string) : forward :=
  match exl_build x dv with
  | Ok (_, _, ps1, vec1, _) => rv_forward true 29 ps1 (v_indices vec1) (v_names vec1) 2
  | Err _ => fun _ _ => Err RuntimeError
  end.

Lemma exl_fwd_ok x dv t : (dv = [] \/ dv = ["temp"%string]) -> x 2%nat <= 3 / 10 -> t <> [] ->
  exists vel, exl_fwd x dv (exl_rows x dv) t = Ok vel.
Proof.
  intros Hd He Ht. unfold exl_fwd, exl_rows. destruct (exl_build x dv) as [[[[[vec h1] ps1] vec1] ls]|] eqn:E.
  2: { exfalso. destruct Hd as [->| ->]; vm_compute in E; discriminate. }
  unfold rv_forward.
  assert (v_to_synth (ps_basis ps1) (v_vector vec1) false None = Ok (v_vector vec1) /\ ps_num ps1 = 1%nat /\
          dget (v_indices vec1) "dvdt" = Some 5%nat /\ dget (v_indices vec1) "curv" = Some 6%nat /\
          vget (v_vector vec1) 5 = Ok (x 5%nat) /\ vget (v_vector vec1) 6 = Ok 0 /\
          orbel_at (v_vector vec1) 1 = Ok (mkOrbel (x 0%nat) (x 1%nat) (x 2%nat) (x 3%nat) (x 4%nat))) as (A & B & C & D & F & G & H).
  { destruct Hd as [->| ->]; vm_compute in E; injection E as <- <- <- <- <-; repeat split; vm_compute; reflexivity. }
  eapply call_succeeds.
  - exact A.
  - exists 5%nat, 6%nat. cbn. rewrite C, D, F, G. eauto.
  - cbn [m_params]. unfold planets_of. rewrite B. intros n [<-|[]]. eexists.
    destruct (rv_drive_terminates true t (mkOrbel (x 0%nat) (x 1%nat) (x 2%nat) (x 3%nat) (x 4%nat)) Ht He) as [y Hy]. eauto.
Qed.

Lemma residuals_defined fwd l v m g gam jit : fwd v (l_x l) = Ok m -> length m = length (l_y l) -> length (l_yerr l) = length (l_y l) ->
  l_decorr l = [] -> nth_error v (l_gidx l) = Some g -> r_val g = Some gam -> vget v (l_jidx l) = Ok jit ->
  exists r, snd (rv_residuals fwd l v) = Ok r.
Proof.
  intros E A B D G HG J. unfold rv_residuals. rewrite E, G, A, B, Nat.eqb_refl, J, D. cbn [andb for_each].
  assert ((l_gidx l < length v)%nat) as HL by (apply nth_error_Some; congruence).
  destruct (marginalised g); cbn [snd].
  - destruct (ztil_finite (l_y l) m (l_yerr l) jit A B) as [z Hz]. rewrite Hz.
    unfold setval. rewrite G. unfold vget. rewrite nth_list_upd_same by auto. cbn. eauto.
  - unfold vget. rewrite G, HG. cbn. eauto.
Qed.

Lemma logprob_defined fwd l v r jit g : snd (rv_residuals fwd l v) = Ok r -> length r = length (l_yerr l) ->
  nth_error (fst (rv_residuals fwd l v)) (l_gidx l) = Some g -> vget v (l_jidx l) = Ok jit ->
  exists x, snd (rv_logprob fwd l v) = Ok x.
Proof.
  intros E L G J. unfold rv_logprob. rewrite J. destruct (rv_residuals fwd l v) as [v1 r']. cbn in E, G. subst r'. cbn [snd bind].
  unfold loglike_jitter. rewrite L, Nat.eqb_refl. cbn [bind]. rewrite G. destruct (marginalised g); eauto.
Qed.

(** members sharing one parameter dictionary *)
Lemma composite_same h v d vid likes : likes <> [] ->
  (forall k, In k (dkeys d) -> exists p, get_param h d k = Some p) ->
  (forall m, In m likes -> c_items m = d /\ c_vector_id m = vid /\
     exists gi g, dget (l_indices (c_like m)) (l_gamma (c_like m)) = Some gi /\ vget v gi = Ok g) ->
  exists c, composite_init h v likes = Ok c.
Proof.
  intros NE HP. destruct likes as [|m0 ms]; [congruence|]. intro H. cbn [composite_init].
  destruct (H m0 (or_introl eq_refl)) as (I0 & V0 & _). rewrite V0.
  assert (forall acc, cp_items acc = d -> exists c, for_each ms (comp_step h v vid) acc = Ok c) as Q.
  { assert (forall m, In m ms -> c_items m = d /\ c_vector_id m = vid /\
       exists gi g, dget (l_indices (c_like m)) (l_gamma (c_like m)) = Some gi /\ vget v gi = Ok g) as HM by (intros; apply H; now right).
    clear H NE I0 V0 m0. induction ms as [|m ms IH]; intros acc Ha; [eexists; reflexivity|]. cbn [for_each].
    destruct (HM m (or_introl eq_refl)) as (A & B & gi & g & C & D).
    unfold comp_step at 1. unfold dget_res. rewrite C. cbn [bind]. rewrite D. cbn [bind]. rewrite A, Ha, B, Nat.eqb_refl.
    assert (merge_params h d d = Ok d) as ->.
    { unfold merge_params. assert (incl (dkeys d) (dkeys d)) as HI by apply incl_refl. revert HI.
      generalize (dkeys d) at 1 3. intro ks. induction ks as [|k ks IHk]; intro HI; [reflexivity|]. cbn [for_each].
      assert (In k (dkeys d)) as Hk by (apply HI; now left). rewrite (proj2 (dmem_in d k) Hk).
      destruct (HP k Hk) as [p ->]. assert (param_equals p p = true) as -> by (apply param_equals_iff; auto). cbn [bind].
      apply IHk. intros z Hz. apply HI. now right. }
    cbn [bind]. apply IH; [intros; apply HM; now right|reflexivity]. }
  apply Q. cbn. exact I0.
Qed.

(** period, tp, e, w, k, dvdt, offsets and jitters; then times and data *)
Definition exl_x (i : nat) : R :=
  nth i [10; 2; 1 / 5; 1; 30; 1 / 2; 4; 3; 5; 2; 0; 0; 0; 0; 0; 0; 0; 0; 0; 0; 12; 15; 7; 9; 2; 3; 5; 6; 0; 0; 17; 8; 4] 0.

Definition exl_cm (d : dict nat) (l : rvlike) : cmember := mkCM l d 0.

Lemma exl_members x : x 2%nat <= 3 / 10 -> exists vec h1 ps1 vec1 ls c rs es xs,
  vector_init (exl_h x) exl_ps = Ok vec /\ build_likes (exl_h x) exl_ps vec (exl_data x []) = Ok (h1, ps1, vec1, ls) /\
  composite_init h1 (v_vector vec1) (map (exl_cm (ps_items ps1)) ls) = Ok c /\ length ls = 2%nat /\
  let fwd := rv_forward true 29 ps1 (v_indices vec1) (v_names vec1) 2 in
  Forall2 (fun l y => snd (rv_residuals fwd l (v_vector vec1)) = Ok y) ls rs /\
  Forall2 (fun l y => rv_errorbars l (v_vector vec1) = Ok y) ls es /\
  Forall2 (fun l y => snd (rv_logprob fwd l (v_vector vec1)) = Ok y) ls xs.
Proof.
  intro He. destruct (exl_built x []) as (vec & h1 & ps1 & vec1 & ls & E1 & E2); [now left|].
  assert (exists c, composite_init h1 (v_vector vec1) (map (exl_cm (ps_items ps1)) ls) = Ok c) as [c Hc].
  { vm_compute in E1. injection E1 as <-. vm_compute in E2. injection E2 as <- <- <- <-.
    apply (composite_same _ _ (ps_items exl_ps) 0%nat); [discriminate| |].
    - intros k Hk. cbn in Hk. decompose [or] Hk; try contradiction; subst; eexists; vm_compute; reflexivity.
    - intros m [<-|[<-|[]]]; (split; [reflexivity|]); (split; [reflexivity|]); do 2 eexists; split; vm_compute; reflexivity. }
  pose (fwd := rv_forward true 29 ps1 (v_indices vec1) (v_names vec1) 2).
  assert (forall t, t <> [] -> exists vel, fwd (v_vector vec1) t = Ok vel /\ length vel = length t) as HF.
  { intros t Ht. destruct (exl_fwd_ok x [] t) as [vel Hv]; [now left|exact He|exact Ht|].
    unfold exl_fwd, exl_rows, exl_build in Hv. rewrite E1 in Hv. cbn [bind] in Hv. rewrite E2 in Hv. cbn [bind] in Hv.
    exists vel. split; [exact Hv|]. unfold rv_forward in Hv. apply call_is_map in Hv. subst. now rewrite map_length. }
  assert (forall l, In l ls -> exists m g gam jit, fwd (v_vector vec1) (l_x l) = Ok m /\ length m = length (l_y l) /\ length (l_yerr l) = length (l_y l) /\
    l_decorr l = [] /\ nth_error (v_vector vec1) (l_gidx l) = Some g /\ r_val g = Some gam /\ vget (v_vector vec1) (l_jidx l) = Ok jit) as HL.
  { clearbody fwd. clear Hc c. vm_compute in E1. injection E1 as <-. vm_compute in E2. injection E2 as <- <- <- <-.
    intros l [<-|[<-|[]]]; cbn [l_x l_y l_yerr l_decorr l_gidx l_jidx].
    - destruct (HF [x 20%nat; x 21%nat]) as (vel & A & B); [discriminate|]. exists vel. do 3 eexists.
      split; [exact A|]. split; [exact B|]. repeat split; try reflexivity.
    - destruct (HF [x 30%nat]) as (vel & A & B); [discriminate|]. exists vel. do 3 eexists.
      split; [exact A|]. split; [exact B|]. repeat split; try reflexivity. }
  assert (length ls = 2%nat) as H2.
  { clear - E1 E2. vm_compute in E1. injection E1 as <-. vm_compute in E2. injection E2 as <- <- <- <-. reflexivity. }
  assert (exists rs es xs, Forall2 (fun l y => snd (rv_residuals fwd l (v_vector vec1)) = Ok y) ls rs /\
    Forall2 (fun l y => rv_errorbars l (v_vector vec1) = Ok y) ls es /\
    Forall2 (fun l y => snd (rv_logprob fwd l (v_vector vec1)) = Ok y) ls xs) as (rs & es & xs & R1 & R2 & R3).
  { assert (forall l y, snd (rv_residuals fwd l (v_vector vec1)) = Ok y ->
       length y = length (l_x l) /\ length (l_y l) = length (l_x l) /\ length (l_yerr l) = length (l_x l)) as RL.
    { intros l y Hy. eapply residuals_len; [|exact Hy]. intros m Hm. unfold fwd, rv_forward in Hm. apply call_is_map in Hm. subst m. now rewrite map_length. }
    clearbody fwd. clear - HL RL. induction ls as [|l ls IH].
    - exists [], [], []. repeat split; constructor.
    - destruct IH as (rs & es & xs & R1 & R2 & R3); [intros; apply HL; now right|].
      destruct (HL l (or_introl eq_refl)) as (m & g & gam & jit & F & A & B & D & G & HG & J).
      destruct (residuals_defined fwd l (v_vector vec1) m g gam jit F A B D G HG J) as [r Hr].
      destruct (RL l r Hr) as (L1 & L2 & L3).
      assert (exists g', nth_error (fst (rv_residuals fwd l (v_vector vec1))) (l_gidx l) = Some g') as [g' G'].
      { unfold rv_residuals. rewrite F, G, A, B, Nat.eqb_refl, J. cbn [andb].
        destruct (marginalised g); cbn [fst]; [|eauto]. unfold setval. rewrite G. rewrite nth_list_upd_same; [eauto|].
        apply nth_error_Some; congruence. }
      destruct (logprob_defined fwd l (v_vector vec1) r jit g' Hr) as [y Hy]; [lia|exact G'|exact J|].
      exists (r :: rs), (map (fun s => sqrt (sig_quad jit s)) (l_yerr l) :: es), (y :: xs).
      repeat split; constructor; auto. unfold rv_errorbars. now rewrite J. }
  exists vec, h1, ps1, vec1, ls, c, rs, es, xs. auto 10.
Qed.

Lemma exl_single x : x 2%nat <= 3 / 10 -> exists fwd la lb v f ga gb,
  fwd = exl_fwd x [] /\ v = exl_rows x [] /\ [la; lb] = exl_likes x [] /\
  has_data la [mkDatum (x 20) (x 22) (x 24); mkDatum (x 21) (x 23) (x 25)]%nat /\ has_data lb [mkDatum (x 30) (x 31) (x 32)]%nat /\
  fwd v (l_x la) = Ok (map f (l_x la)) /\ fwd v (l_x lb) = Ok (map f (l_x lb)) /\
  l_decorr la = [] /\ l_decorr lb = [] /\
  nth_error v (l_gidx la) = Some ga /\ r_val ga = Some (x 6%nat) /\ r_lin ga = true /\ r_vary ga = false /\ l_jidx la <> l_gidx la /\ vget v (l_jidx la) = Ok (x 7%nat) /\
  nth_error v (l_gidx lb) = Some gb /\ marginalised gb = false /\ r_val gb = Some (x 8%nat) /\ vget v (l_jidx lb) = Ok (x 9%nat).
Proof.
  intro He. destruct (exl_built x []) as (vec & h1 & ps1 & vec1 & ls & E1 & E2); [now left|].
  assert (exl_build x [] = Ok (vec, h1, ps1, vec1, ls)) as EB.
  { unfold exl_build. rewrite E1. cbn [bind]. rewrite E2. reflexivity. }
  exists (exl_fwd x []).
  assert (exists la lb, [la; lb] = exl_likes x [] /\
    has_data la [mkDatum (x 20) (x 22) (x 24); mkDatum (x 21) (x 23) (x 25)]%nat /\ has_data lb [mkDatum (x 30) (x 31) (x 32)]%nat /\
    l_decorr la = [] /\ l_decorr lb = [] /\ l_gidx la = 7%nat /\ l_jidx la = 8%nat /\ l_gidx lb = 9%nat /\ l_jidx lb = 10%nat) as (la & lb & A & D1 & D2 & C1 & C2 & G1 & J1 & G2 & J2).
  { unfold exl_likes. rewrite EB. clear EB. vm_compute in E1. injection E1 as <-. vm_compute in E2. injection E2 as <- <- <- <-.
    do 2 eexists. split; [reflexivity|]. unfold has_data. repeat split; reflexivity. }
  destruct (exl_fwd_ok x [] (l_x la)) as [va Ha]; [now left|exact He|rewrite (proj1 D1); discriminate|].
  destruct (exl_fwd_ok x [] (l_x lb)) as [vb Hb]; [now left|exact He|rewrite (proj1 D2); discriminate|].
  exists la, lb, (exl_rows x []), (vel_at true 29 (mkRVModel ps1 (mkVector (v_indices vec1) (exl_rows x []) (v_names vec1)) 2) None).
  assert (forall ga gb : row, exl_rows x [] = v_vector vec1) as Er by (intros; unfold exl_rows; now rewrite EB).
  do 2 eexists. split; [reflexivity|]. split; [reflexivity|]. split; [exact A|]. split; [exact D1|]. split; [exact D2|].
  split. { rewrite Ha. f_equal. unfold exl_fwd in Ha. rewrite EB in Ha. unfold rv_forward in Ha. now apply call_is_map in Ha. }
  split. { rewrite Hb. f_equal. unfold exl_fwd in Hb. rewrite EB in Hb. unfold rv_forward in Hb. now apply call_is_map in Hb. }
  rewrite C1, C2, G1, G2, J1, J2. clear. repeat (split; [try reflexivity; discriminate|]). vm_compute. reflexivity.
Qed.
