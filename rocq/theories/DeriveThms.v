(** C66: the theorems. *)
From Coq Require Import ZArith Reals String Arith Bool Lia Lra List.
From Verif Require Import Py PyFloat PyFacts PyFloatFacts Params ParamsProofs ParamsSpec Basis BasisProofs BasisConv BasisModel BasisThms VectorProofs Mass MassProofs
  Stats PostProc PostProcSpec PostProcProofs PostProcThms Derive DeriveSpec DeriveProofs.
Import ListNotations.
Open Scope R_scope.
Open Scope string_scope.

Lemma dnames_no_digit p : In p DNAMES -> no_digit p = true.
Proof. cbn. intuition (subst; reflexivity). Qed.
Lemma dkey_neq p q n m : In p DNAMES -> In q DNAMES -> (p <> q \/ n <> m) -> key p n <> key q m.
Proof. intros Hp Hq H K. apply key_inj in K; try (now apply dnames_no_digit). destruct K. tauto. Qed.

Section Loop.
  Variables (c : uconst) (root : (R -> R) -> R -> R) (synth : dict (list R)) (mstar : list R) (planet : option (dict R)) (draw_r : nat -> R -> R -> list R).

  (** columns of planet [n] *)
  Definition planet_out (n : nat) (cols : dict (list R)) : Prop :=
    exists per k e mp, dget synth (key "per" n) = Some per /\ dget synth (key "k" n) = Some k /\ dget synth (key "e" n) = Some e /\
      Msini root c "earth" (mrows k per mstar e) = Ok mp /\
      dget cols (key "mpsini" n) = Some mp /\
      dget cols (key "a" n) = Some (zip2 (semi_major_axis c) per (zip2 (fun m p => m + p * c_mearth c / c_msun c) mstar mp)) /\
      dget cols (key "musini" n) = Some (zip2 (fun p m => p * c_mearth c / (m * c_msun c)) mp mstar) /\
      forall loc scale, has_radius planet n loc scale -> exists rho, 0 <= scale /\
        map_res (fun mr => density c "earth" (fst mr) (snd mr)) (combine mp (draw_r n loc scale)) = Ok rho /\
        dget cols (key "rp" n) = Some (draw_r n loc scale) /\ dget cols (key "rhop" n) = Some rho.

  Lemma planet_out_frame n cols cols' : (forall p, In p DNAMES -> dget cols' (key p n) = dget cols (key p n)) -> planet_out n cols -> planet_out n cols'.
  Proof.
    intros H (per & k & e & mp & A1 & A2 & A3 & A4 & A5 & A6 & A7 & A8). exists per, k, e, mp.
    rewrite !(H "mpsini"), !(H "a"), !(H "musini") by (cbn; tauto). repeat (split; [assumption|]).
    intros loc scale HR. destruct (A8 loc scale HR) as (rho & B0 & B1 & B2 & B3). exists rho. rewrite (H "rp"), (H "rhop") by (cbn; tauto). auto.
  Qed.

  Ltac key_ne := match goal with |- key ?p ?n <> key ?q ?m => apply dkey_neq; [cbn; tauto|cbn; tauto|left; discriminate] end.
  Ltac get_key := repeat (rewrite dget_dset_same || (rewrite dget_dset_other by key_ne)).

  Lemma planet_step_inv st n st' : derive_planet c root synth mstar planet draw_r st n = Ok st' ->
    planet_out n (fst st') /\ (exists l, listed_for planet n l /\ snd st' = (snd st ++ l)%list) /\
    (forall k, (forall p, In p DNAMES -> k <> key p n) -> dget (fst st') k = dget (fst st) k).
  Proof.
    unfold derive_planet, dget_res. destruct (dget synth (key "per" n)) as [per|] eqn:E1; [|discriminate]. cbn [bind].
    destruct (dget synth (key "k" n)) as [k|] eqn:E2; [|discriminate]. cbn [bind]. destruct (dget synth (key "e" n)) as [e|] eqn:E3; [|discriminate]. cbn [bind].
    destruct (Msini root c "earth" (mrows k per mstar e)) as [mp|] eqn:E4; [|discriminate]. cbn [bind]. unfold list_out, put. cbn [fst snd].
    set (A := zip2 (semi_major_axis c) per _). set (MU := zip2 _ mp mstar).
    assert (forall cols extra, (forall loc scale, ~ has_radius planet n loc scale) ->
      st' = (dset (dset (dset (fst st) (key "mpsini" n) mp) (key "a" n) A) (key "musini" n) MU, (((snd st ++ [key "mpsini" n]) ++ [key "a" n]) ++ [key "musini" n])%list) ->
      cols = fst st' -> extra = snd st' ->
      planet_out n (fst st') /\ (exists l, listed_for planet n l /\ snd st' = (snd st ++ l)%list) /\ (forall k0, (forall p, In p DNAMES -> k0 <> key p n) -> dget (fst st') k0 = dget (fst st) k0)) as PLAIN.
    { intros _ _ NR -> _ _. cbn [fst snd]. split; [|split].
      - exists per, k, e, mp. repeat (split; [assumption|]). get_key. repeat (split; [reflexivity|]). intros loc scale HR. destruct (NR _ _ HR).
      - eexists. split; [right; split; [exact NR|reflexivity]|]. rewrite <- !app_assoc. reflexivity.
      - intros k0 Hk0. rewrite !dget_dset_other by (apply Hk0; cbn; tauto). reflexivity. }
    destruct planet as [pl|] eqn:EP.
    2:{ intros [= <-]. eapply PLAIN; try reflexivity. intros loc scale (q & Q & _). discriminate. }
    destruct (dget pl (key "rp" n)) as [loc|] eqn:F1.
    2:{ intros [= <-]. eapply PLAIN; try reflexivity. intros loc scale (q & Q & Q1 & _). congruence. }
    destruct (dget pl (key "rp_err" n)) as [scale|] eqn:F2.
    2:{ intros [= <-]. eapply PLAIN; try reflexivity. intros l2 scale (q & Q & Q1 & Q2). congruence. }
    clear PLAIN. unfold normal. destruct (rltb scale 0) eqn:RS; [discriminate|]. cbn [bind]. apply rltb_f in RS.
    destruct (map_res _ (combine mp (draw_r n loc scale))) as [rho|] eqn:ER; [|discriminate]. cbn [bind]. intros [= <-]. cbn [fst snd]. split; [|split].
    - exists per, k, e, mp. repeat (split; [assumption|]). get_key. repeat (split; [reflexivity|]). intros loc' scale' (q & Q0 & Q1 & Q2). assert (q = pl) by congruence. subst q.
      assert (loc' = loc) by congruence. assert (scale' = scale) by congruence. subst. exists rho. get_key. auto.
    - eexists. split; [left; exists loc, scale; split; [exists pl; auto|reflexivity]|]. rewrite <- !app_assoc. reflexivity.
    - intros k0 Hk0. rewrite !dget_dset_other by (apply Hk0; cbn; tauto). reflexivity.
  Qed.

  Lemma planet_loop_inv ns : NoDup ns -> forall st st', for_each ns (derive_planet c root synth mstar planet draw_r) st = Ok st' ->
    (forall n, In n ns -> planet_out n (fst st')) /\
    (exists ll, Forall2 (listed_for planet) ns ll /\ snd st' = (snd st ++ concat ll)%list) /\
    (forall k, (forall n p, In n ns -> In p DNAMES -> k <> key p n) -> dget (fst st') k = dget (fst st) k).
  Proof.
    induction ns as [|n ns IH]; intros ND st st' E; cbn in E.
    - injection E as <-. split; [easy|]. split; [|auto]. exists []. split; [constructor|]. cbn. now rewrite app_nil_r.
    - destruct (derive_planet c root synth mstar planet draw_r st n) as [s1|] eqn:E1; [|discriminate]. cbn in E. inversion ND; subst.
      destruct (planet_step_inv _ _ _ E1) as (A1 & (l & A2 & A3) & A4). destruct (IH H2 _ _ E) as (B1 & (ll & B2 & B3) & B4). split; [|split].
      + intros m [<-|Hm]; [|auto]. eapply planet_out_frame; [|exact A1]. intros p Hp. apply B4. intros m q Hm Hq. apply dkey_neq; auto. right. intros ->. contradiction.
      + exists (l :: ll). split; [constructor; auto|]. rewrite B3, A3, <- app_assoc. reflexivity.
      + intros k Hk. rewrite B4; [apply A4; intros; apply Hk; auto; now left|]. intros; apply Hk; auto. now right.
  Qed.
End Loop.

Lemma quant_loop cols out : forall q0 q, for_each out (fun q k => do l <- dget_res cols k; Ok (dset q k (three_quantiles l))) q0 = Ok q ->
  (forall k, In k out -> exists l, dget cols k = Some l /\ dget q k = Some (three_quantiles l)) /\ (forall k, ~ In k out -> dget q k = dget q0 k).
Proof.
  induction out as [|a out IH]; intros q0 q E; cbn [for_each] in E; [injection E as <-; split; [easy|auto]|].
  unfold dget_res in E at 1. destruct (dget cols a) as [l|] eqn:El; [|discriminate]. cbn [bind] in E. destruct (IH _ _ E) as [A B]. split.
  - intros k Hk. destruct (in_dec string_dec k out) as [Hi|Hn]; [auto|]. destruct Hk as [<-|]; [|easy]. exists l. split; [auto|]. rewrite B by auto. apply dget_dset_same.
  - intros k Hk. rewrite B by (intro; apply Hk; now right). apply dget_dset_other. intros ->. apply Hk. now left.
Qed.

Section Main.
  Variables (c : uconst) (root : (R -> R) -> R -> R).
  Variables (h : heap) (ps : params) (nplanets : nat) (chains : table) (stellar : option (dict R)) (draw_m : R -> R -> list R)
    (planet : option (dict R)) (draw_r : nat -> R -> R -> list R).
  Variables (cols : dict (list R)) (out : list string) (q : dict (R * R * R)).
  Hypothesis E : derive c root h ps nplanets chains stellar draw_m planet draw_r = Ok (Some ((cols, out), q)).

  Lemma derive_inv : exists stl loc scale t synth, stellar = Some stl /\ dget stl "mstar" = Some loc /\ dget stl "mstar_err" = Some scale /\ 0 <= scale /\
    fill_dict h (ps_items ps) chains = Ok t /\ to_synth_table (b_name (ps_basis ps)) (b_num (ps_basis ps)) t = Ok synth /\
    for_each (seq 1 nplanets) (derive_planet c root synth (reflect (draw_m loc scale)) planet draw_r) (t_cols chains, []) = Ok (cols, out) /\
    quantile_table cols out = Ok q.
  Proof.
    unfold derive in E. destruct stellar as [stl|]; [|discriminate]. unfold dget_res in E. destruct (dget stl "mstar") as [loc|] eqn:E1; [|discriminate]. cbn [bind] in E.
    destruct (dget stl "mstar_err") as [scale|] eqn:E2; [|discriminate]. cbn [bind] in E. unfold normal in E at 1. destruct (rltb scale 0) eqn:RS; [discriminate|]. cbn [bind] in E.
    destruct (fill_dict h (ps_items ps) chains) as [t|] eqn:E3; [|discriminate]. cbn [bind] in E. destruct (to_synth_table _ _ t) as [synth|] eqn:E4; [|discriminate]. cbn [bind] in E.
    destruct (for_each (seq 1 nplanets) _ _) as [[cols' out']|] eqn:E5; [|discriminate]. cbn [bind fst snd] in E.
    destruct (quantile_table cols' out') as [q'|] eqn:E6; [|discriminate]. cbn [bind] in E. injection E as -> -> ->.
    exists stl, loc, scale, t, synth. apply rltb_f in RS. auto 10.
  Qed.

  (** which columns *)
  Theorem derive_columns :
    (exists ll, Forall2 (listed_for planet) (seq 1 nplanets) ll /\ out = concat ll) /\
    (forall k, In k out -> exists l, dget cols k = Some l /\ dget q k = Some (three_quantiles l)) /\
    (forall k, In k (dkeys q) -> In k out) /\
    (forall k, (forall n p, (1 <= n <= nplanets)%nat -> In p DNAMES -> k <> key p n) -> dget cols k = dget (t_cols chains) k).
  Proof.
    destruct derive_inv as (stl & loc & scale & t & synth & S1 & S2 & S3 & S4 & E3 & E4 & E5 & E6).
    destruct (planet_loop_inv _ _ _ _ _ _ _ (seq_NoDup _ _) _ _ E5) as (A & (ll & B & C) & D). cbn [fst snd] in *. destruct (quant_loop _ _ _ _ E6) as [Q1 Q2].
    split; [exists ll; auto|]. split; [exact Q1|]. split.
    - intros k Hk. destruct (in_dec string_dec k out) as [|N]; [auto|]. apply Q2 in N. cbn in N. apply dget_some_key in Hk as [? ?]. congruence.
    - intros k Hk. apply D. intros n p Hn. apply Hk. apply in_seq in Hn. lia.
  Qed.

  (** the numbers *)
  Variables (b : string) (names : list string) (stl : dict R) (loc scale : R).
  Hypotheses (OK : ParamsSpec.params_ok h ps b names) (C : uconst_ok c) (NP : (nplanets <= ps_num ps)%nat)
    (ST : stellar = Some stl) (SL : dget stl "mstar" = Some loc) (SS : dget stl "mstar_err" = Some scale) (DM : length (draw_m loc scale) = t_len chains).

  Local Notation sample_row := (sample_row h ps chains draw_m b names loc scale).
  Theorem derive_values n : (1 <= n <= nplanets)%nat ->
    (forall i x, (i < t_len chains)%nat -> sample_row n i x -> row_ok x) ->
    exists mp a mu, dget cols (key "mpsini" n) = Some mp /\ dget cols (key "a" n) = Some a /\ dget cols (key "musini" n) = Some mu /\
      length mp = t_len chains /\ length a = t_len chains /\ length mu = t_len chains /\
      exists xs, length xs = t_len chains /\ (forall i d, (i < t_len chains)%nat -> sample_row n i (nth i xs d)) /\
        ((forall x, In x xs -> ~ massive c x) ->
          forall i d, (i < t_len chains)%nat -> let x := nth i xs d in
            semi_amplitude c "earth" (nth i mp 0) (r_P x) (r_M x) (r_e x) = Ok (r_K x) /\ laws c x (nth i mp 0) (nth i a 0) (nth i mu 0)) /\
        ((exists x, In x xs /\ massive c x) -> (forall x, In x xs -> root_finds c root x) ->
          forall i d, (i < t_len chains)%nat -> let x := nth i xs d in
            two_body c x (nth i mp 0 * c_mearth c) /\ laws c x (nth i mp 0) (nth i a 0) (nth i mu 0)).
  Proof.
    intros Hn RO. destruct derive_inv as (stl' & loc' & scale' & t & synth & S1 & S2 & S3 & S4 & E3 & E4 & E5 & E6).
    assert (stl' = stl) by congruence. subst stl'. assert (loc' = loc) by congruence. assert (scale' = scale) by congruence. subst loc' scale'.
    destruct (planet_loop_inv _ _ _ _ _ _ _ (seq_NoDup _ _) _ _ E5) as (A & _ & _).
    destruct (A n) as (per & k & e & mp & P1 & P2 & P3 & P4 & P5 & P6 & P7 & _); [apply in_seq; lia|]. cbn [fst] in *.
    pose proof (derive_elements h ps chains b names t synth OK E3 E4) as DE.
    assert (1 <= n <= ps_num ps)%nat as Hn2 by lia.
    destruct (DE n "per" Hn2) as (cp & D1 & D2 & D3); [cbn; tauto|]. assert (cp = per) by congruence. subst cp.
    destruct (DE n "k" Hn2) as (ck & D4 & D5 & D6); [cbn; tauto|]. assert (ck = k) by congruence. subst ck.
    destruct (DE n "e" Hn2) as (ce & D7 & D8 & D9); [cbn; tauto|]. assert (ce = e) by congruence. subst ce.
    set (ms := reflect (draw_m loc scale)) in *. assert (length ms = t_len chains) as LM by (unfold ms; now rewrite reflect_length).
    set (xs := mrows k per ms e) in *. assert (length xs = t_len chains) as LX by (unfold xs; rewrite mrows_length; congruence).
    assert (forall i d, (i < t_len chains)%nat -> sample_row n i (nth i xs d)) as SR.
    { intros i d Hi. unfold xs. rewrite mrows_nth by congruence. destruct (D3 i Hi) as (el & G1 & G2 & G3). destruct (D6 i Hi) as (el2 & _ & G4 & G5). destruct (D9 i Hi) as (el3 & _ & G6 & G7).
      exists el. split; [exact G1|].
      rewrite <- G3 in G5, G7. subst el2 el3. rewrite G2, G4, G6. unfold ms. rewrite reflect_nth by lia. reflexivity. }
    assert (Forall row_ok xs) as FR.
    { apply Forall_forall. intros x Hx. apply (In_nth _ _ x) in Hx. destruct Hx as (i & Hi & <-). apply (RO i); [lia|]. apply SR. lia. }
    destruct (Msini_earth _ _ _ _ P4 C FR) as [LMP MS]. rewrite LX in LMP, MS.
    assert (length (zip2 (fun m p => m + p * c_mearth c / c_msun c) ms mp) = t_len chains) as LZ by (rewrite zip2_length; congruence).
    eexists mp, _, _. split; [exact P5|]. split; [exact P6|]. split; [exact P7|]. split; [exact LMP|]. split; [rewrite zip2_length; congruence|]. split; [rewrite zip2_length; congruence|].
    exists xs. split; [exact LX|]. split; [exact SR|].
    assert (forall i d, (i < t_len chains)%nat -> 0 < nth i mp 0 -> laws c (nth i xs d) (nth i mp 0)
      (nth i (zip2 (semi_major_axis c) per (zip2 (fun m p => m + p * c_mearth c / c_msun c) ms mp)) 0) (nth i (zip2 (fun p m => p * c_mearth c / (m * c_msun c)) mp ms) 0)) as LW.
    { intros i d Hi Pm. set (f2 := fun p m => p * c_mearth c / (m * c_msun c)). set (f1 := fun m p => m + p * c_mearth c / c_msun c) in *.
      rewrite (zip2_nth f2) by congruence || lia. rewrite (zip2_nth (semi_major_axis c)) by congruence || lia. rewrite (zip2_nth f1) by congruence || lia. unfold f1, f2. assert (i < length xs)%nat as Hix by lia. pose proof (proj1 (Forall_forall _ _) FR (nth i xs d) (nth_In _ _ Hix)) as (X1 & X2 & X3 & X4). clear Hix.
      unfold xs in *. rewrite mrows_nth in * by congruence. cbn [r_K r_P r_M r_e] in *. pose proof C as (C1 & C2 & C3 & C4 & C5 & C6 & C7).
      set (M := nth i ms 0) in *. set (P := nth i per 0) in *. set (m := nth i mp 0) in *.
      assert (0 < m * c_mearth c / c_msun c) as Hq by (apply Rdiv_lt_0_compat; nra).
      destruct (third_law c P (M + m * c_mearth c / c_msun c) C X2) as [T1 T2]; [lra|]. unfold laws. cbn [r_K r_P r_M r_e]. split; [|split; [|split; [exact Pm|exact T1]]].
      - rewrite T2. replace ((M + m * c_mearth c / c_msun c) * c_msun c) with (M * c_msun c + m * c_mearth c) by (field; lra). reflexivity.
      - field. nra. }
    split.
    - intros NM i d Hi. destruct (MS i d Hi) as [L _]. destruct (L NM) as [L1 L2]. split; [exact L1|]. now apply LW.
    - intros HM RF i d Hi. destruct (MS i d Hi) as [_ L]. destruct (L HM RF) as [L1 L2]. split; [exact L1|]. now apply LW.
  Qed.

  (** densities *)
  Theorem derive_density n rloc rscale : (1 <= n <= nplanets)%nat -> has_radius planet n rloc rscale -> length (draw_r n rloc rscale) = t_len chains ->
    (forall i x, (i < t_len chains)%nat -> sample_row n i x -> row_ok x) ->
    exists mp rho, dget cols (key "mpsini" n) = Some mp /\ dget cols (key "rhop" n) = Some rho /\ dget cols (key "rp" n) = Some (draw_r n rloc rscale) /\ length rho = t_len chains /\
      forall i, (i < t_len chains)%nat -> let r := nth i (draw_r n rloc rscale) 0 in r <> 0 ->
        nth i rho 0 * 1000 * (4 / 3 * PI * (r * c_rearth c) ^ 3) = nth i mp 0 * c_mearth c.
  Proof.
    intros Hn HR LR RO. destruct (derive_values n Hn RO) as (mp & _ & _ & V1 & _ & _ & V2 & _).
    destruct derive_inv as (stl' & loc' & scale' & t & synth & S1 & S2 & S3 & S4 & E3 & E4 & E5 & E6).
    destruct (planet_loop_inv _ _ _ _ _ _ _ (seq_NoDup _ _) _ _ E5) as (A & _ & _).
    destruct (A n) as (per & k & e & mp' & P1 & P2 & P3 & P4 & P5 & P6 & P7 & P8); [apply in_seq; lia|]. cbn [fst] in *. assert (mp' = mp) by congruence. subst mp'.
    destruct (P8 _ _ HR) as (rho & Q0 & Q1 & Q2 & Q3). exists mp, rho. destruct (map_res_nth _ _ _ Q1) as [L M]. rewrite combine_length, LR, V2, Nat.min_id in L.
    do 4 (split; [assumption|]). intros i Hi Hr. set (r := nth i (draw_r n rloc rscale) 0) in *.
    assert (nth_error (combine mp (draw_r n rloc rscale)) i = Some (nth i mp 0, r)) as Hc.
    { unfold r. rewrite <- (combine_nth mp (draw_r n rloc rscale)) by congruence. apply nth_error_nth'. rewrite combine_length. lia. }
    destruct (M i _ Hc) as (y & Y1 & Y2). cbn [fst snd] in Y2. rewrite (nth_error_nth _ _ _ Y1).
    destruct C as (C1 & C2 & C3 & C4 & C5 & C6 & C7). unfold density in Y2. cbn [lower String.eqb] in Y2. change (String.eqb (lower "earth") "earth") with true in Y2. cbn [bind] in Y2.
    injection Y2 as <-. change (r * c_rearth c * (r * c_rearth c * (r * c_rearth c * 1))) with ((r * c_rearth c) ^ 3). pose proof PI_RGT_0. field. repeat split; lra.
  Qed.
End Main.

Lemma rltb_ff x y : y <= x -> rltb x y = false. Proof. unfold rltb. intro. destruct (Rlt_dec x y); [lra|auto]. Qed.
(** ** an example *)
Definition ex_stellar : dict R := [("mstar", 1); ("mstar_err", 1 / 2)].
Definition ex_planet : dict R := [("rp1", 1); ("rp_err1", 1)].
Definition ex_draw_m (loc scale : R) : list R := [1; - 2].
Definition ex_draw_r (n : nat) (loc scale : R) : list R := [2; - 1].

Lemma ex_fill : fill_dict ex_heap (ps_items ex_post_ps) ex_chains =
  Ok (mkTable 2 [("k1", [4; 4]); ("per1", [10; 10]); ("tp1", [1; 1]); ("e1", [0; 0]); ("w1", [2; 2]); ("gamma_j", [5; 5])]).
Proof. reflexivity. Qed.
Lemma ex_synth : exists synth, to_synth_table (b_name (ps_basis ex_post_ps)) (b_num (ps_basis ex_post_ps))
    (mkTable 2 [("k1", [4; 4]); ("per1", [10; 10]); ("tp1", [1; 1]); ("e1", [0; 0]); ("w1", [2; 2]); ("gamma_j", [5; 5])]) = Ok synth /\
  dget synth (key "per" 1) = Some [10; 10] /\ dget synth (key "k" 1) = Some [4; 4] /\ dget synth (key "e" 1) = Some [0; 0].
Proof. eexists. split; [reflexivity|]. repeat split; reflexivity. Qed.

Lemma ex_derive c root : exists cols out q mp rho,
  derive c root ex_heap ex_post_ps 1 ex_chains (Some ex_stellar) ex_draw_m (Some ex_planet) ex_draw_r = Ok (Some ((cols, out), q)) /\
  out = ["mpsini1"; "a1"; "musini1"; "rhop1"] /\ Msini root c "earth" (mrows [4; 4] [10; 10] [1; 2] [0; 0]) = Ok mp /\
  dget cols "rhop1" = Some rho /\ map_res (fun mr => density c "earth" (fst mr) (snd mr)) (combine mp [2; - 1]) = Ok rho.
Proof.
  assert (exists mp, Msini root c "earth" (mrows [4; 4] [10; 10] [1; 2] [0; 0]) = Ok mp) as [mp EM].
  { unfold Msini. change (String.eqb (lower "earth") "jupiter") with false. change (String.eqb (lower "earth") "earth") with true. eexists. reflexivity. }
  assert (exists rho, map_res (fun mr => density c "earth" (fst mr) (snd mr)) (combine mp [2; - 1]) = Ok rho) as [rho ER].
  { generalize (combine mp [2; - 1]) as l. induction l as [|x l [r IH]]; [eexists; reflexivity|]. cbn [map_res]. rewrite IH. eexists. reflexivity. }
  assert (reflect (ex_draw_m 1 (1 / 2)) = [1; 2]) as ES.
  { unfold reflect, ex_draw_m. cbn [map]. rewrite (proj2 (PyFacts.rleb_false 1 0)) by lra. rewrite (proj2 (PyFacts.rleb_true (-2) 0)) by lra. rewrite Rabs_left by lra. do 2 f_equal. f_equal. lra. }
  destruct ex_synth as (synth & Y1 & Y2 & Y3 & Y4).
  unfold derive. cbn [ex_stellar dget_res dget String.eqb Ascii.eqb Bool.eqb bind]. unfold normal at 1. rewrite (rltb_ff (1 / 2) 0) by lra. cbn [bind].
  rewrite ex_fill. cbn [bind]. rewrite Y1. cbn [bind]. rewrite ES. cbn [seq for_each]. unfold derive_planet. unfold dget_res at 1 2 3. rewrite Y2, Y3, Y4. cbn [bind]. rewrite EM. cbn [bind].
  change (dget ex_planet (key "rp" 1)) with (Some 1). change (dget ex_planet (key "rp_err" 1)) with (Some 1). unfold normal. rewrite (rltb_ff 1 0) by lra. cbn [bind].
  change (ex_draw_r 1 1 1) with [2; - 1]. rewrite ER. cbn [bind].
  eexists _, _, _, mp, rho. split; [reflexivity|]. auto.
Qed.

Lemma ex_sample i x : (i < 2)%nat -> sample_row ex_heap ex_post_ps ex_chains ex_draw_m "per tp e w k" ex_names 1 (1 / 2) 1 i x ->
  x = mkMrow 4 10 (Rabs (nth i [1; - 2] 0)) 0.
Proof.
  intros Hi (el & (vals & V & ->) & ->).
  assert (forall q col, In q ex_names -> dget [("k1", [4; 4]); ("per1", [10; 10]); ("tp1", [1; 1]); ("e1", [0; 0]); ("w1", [2; 2]); ("gamma_j", [5; 5])] (key q 1) = Some col -> vals q = nth i col 0) as G.
  { intros q col Hq Hc. destruct (V q Hq) as (c & D & ->). apply (dict_fill_samples _ _ _ _ _ _ ex_fill) in D. cbn [t_cols] in D. congruence. }
  pose proof (G "per" [10; 10] ltac:(cbn; tauto) eq_refl) as G1. pose proof (G "e" [0; 0] ltac:(cbn; tauto) eq_refl) as G2. pose proof (G "k" [4; 4] ltac:(cbn; tauto) eq_refl) as G3.
  assert (i = 0 \/ i = 1)%nat as Hc by lia.
  assert (vals "per" = 10 /\ vals "e" = 0 /\ vals "k" = 4) as (W1 & W2 & W3) by (rewrite G1, G2, G3; destruct Hc as [-> | ->]; cbn; auto).
  cbn [els synth_of]. rewrite <- W1, <- W2, <- W3. reflexivity.
Qed.
Lemma ex_rows_ok i x : (i < 2)%nat -> sample_row ex_heap ex_post_ps ex_chains ex_draw_m "per tp e w k" ex_names 1 (1 / 2) 1 i x -> row_ok x.
Proof.
  intros Hi H. rewrite (ex_sample i x Hi H). unfold row_ok. cbn [r_K r_P r_M r_e]. assert (0 < Rabs (nth i [1; - 2] 0)); [|repeat split; lra].
  apply Rabs_pos_lt. assert (i = 0 \/ i = 1)%nat as [-> | ->] by lia; cbn; lra.
Qed.

(** draws of the radius are not reflected: a negative one gives a negative density *)
Lemma density_negative : forall c root, uconst_ok c -> (forall f x, 0 < root f x) -> exists cols out q rho y,
  derive c root ex_heap ex_post_ps 1 ex_chains (Some ex_stellar) ex_draw_m (Some ex_planet) ex_draw_r = Ok (Some ((cols, out), q)) /\
  dget cols "rhop1" = Some rho /\ In y rho /\ y < 0.
Proof.
  intros c root C RP. destruct (ex_derive c root) as (cols & out & q & mp & rho & E & _ & EM & ER & EM2).
  assert (exists m1 m2, mp = [m1; m2] /\ 0 < m2) as (m1 & m2 & -> & P2).
  { cbn [mrows] in EM. unfold Msini in EM. change (String.eqb (lower "earth") "jupiter") with false in EM. change (String.eqb (lower "earth") "earth") with true in EM.
    pose proof C as (C1 & C2 & C3 & _). destruct (existsb _ _); injection EM as <-; cbn [map]; eexists _, _; (split; [reflexivity|]).
    - pose proof (RP (msini_func c (mkMrow 4 10 2 0)) (c_mjup c)). apply Rdiv_lt_0_compat; [|auto]. apply Rmult_lt_0_compat; [|auto]. now apply Rdiv_lt_0_compat.
    - assert (row_ok (mkMrow 4 10 2 0)) as RO by (unfold row_ok; cbn; lra). destruct (light_law c _ C RO) as [_ L]. apply Rdiv_lt_0_compat; [now apply Rmult_lt_0_compat|auto]. }
  cbn [combine map_res fst snd] in EM2. unfold density in EM2. change (String.eqb (lower "earth") "earth") with true in EM2. cbn [bind] in EM2. injection EM2 as <-.
  eexists cols, out, q, _, _. split; [exact E|]. split; [exact ER|]. split; [right; left; reflexivity|].
  destruct C as (C1 & C2 & C3 & C4 & C5 & _). pose proof PI_RGT_0.
  assert (0 < c_rearth c * (c_rearth c * c_rearth c)) by (repeat apply Rmult_lt_0_compat; auto).
  unfold Rdiv. rewrite <- (Ropp_involutive (_ * _ * _ * / 1000)). apply Ropp_lt_gt_0_contravar.
  replace (- (m2 * c_mearth c * / (4 * / 3 * PI * (-1 * c_rearth c * (-1 * c_rearth c * (-1 * c_rearth c * 1)))) * / 1000)) with
    (m2 * c_mearth c / (4 / 3 * PI * (c_rearth c * (c_rearth c * c_rearth c))) / 1000) by (field; repeat split; lra).
  apply Rdiv_lt_0_compat; [|lra]. apply Rdiv_lt_0_compat; [nra|]. apply Rmult_lt_0_compat; [|auto]. apply Rmult_lt_0_compat; lra.
Qed.

Lemma no_star c root h ps nplanets chains stellar draw_m planet draw_r : derive c root h ps nplanets chains stellar draw_m planet draw_r = Ok None <-> stellar = None.
Proof.
  split; [|intros ->; reflexivity]. destruct stellar as [stl|]; [|auto]. unfold derive. intro E. exfalso.
  repeat match type of E with (bind ?m _) = _ => destruct m; cbn [bind] in E; [|discriminate E] end. discriminate E.
Qed.
