(** Concrete objects for the examples of PropertiesPrior.v. *)
From Coq Require Import Reals String Arith ZArith Bool Lia Lra List.
From Verif Require Import Py PyFloat PyFacts PyFloatFacts Params ParamsProofs ParamsSpec VectorProofs Kepler KeplerSpec Basis RVModel
  Likelihood LikeSpec LikeProofs LikeHist LikeBuild ExLike Prior PriorSpec PriorPhys Posterior PostProofs PostHist.
Import ListNotations.
Open Scope R_scope.

Lemma ex_admissible : forall x, exists vec h1 ps1 vec1 ls,
  layout (ps_num exl_ps) "per tp e w k" ["per"; "tp"; "e"; "w"; "k"]%string (dkeys (ps_items exl_ps)) /\
  b_num (ps_basis exl_ps) = ps_num exl_ps /\ vector_init (exl_h x) exl_ps = Ok vec /\
  build_likes (exl_h x) exl_ps vec (exl_data x ["temp"%string]) = Ok (h1, ps1, vec1, ls) /\ cache_fresh None (v_vector vec1) /\
  forall p, In p [PGaussian "gamma_b" 0 1; PEcc [1%nat] [1]; PPosK 1; PSecEcl 1 3 1; PHard "jit_a" (Fin 0) (Fin 10)] ->
    prior_admissible (ps_num exl_ps) ls (v_vector vec1) (v_indices vec1) p.
Proof.
  intro x. destruct (exl_built x ["temp"%string]) as (vec & h1 & ps1 & vec1 & ls & A & B); [auto|].
  exists vec, h1, ps1, vec1, ls. split; [exact exl_layout|]. split; [reflexivity|]. split; [exact A|]. split; [exact B|]. split; [now left|].
  assert (forall s, offset_marginalised ls (v_vector vec1) s -> s = "gamma_a"%string) as Q.
  { intros s (l & g & Hl & -> & Hg & Hm). clear - A B Hl Hg Hm. vm_compute in A. injection A as <-. vm_compute in B. injection B as <- <- <- <-.
    destruct Hl as [<-|[<-|[]]]; [reflexivity|]. cbn in Hg. injection Hg as <-. discriminate. }
  intros p Hp. split.
  - intros s Hs K. apply Q in K. subst s. cbn in Hp. decompose [or] Hp; try contradiction; subst p; vm_compute in Hs; intuition discriminate.
  - cbn in Hp. decompose [or] Hp; try contradiction; subst p; cbn; auto; lia.
Qed.

Lemma ex_ecc_planet : exists idx v,
  In ("per tc secosw sesinw k", ["per"; "tc"; "secosw"; "sesinw"; "k"])%string FIT_BASES /\
  planet_holds idx v ["per"; "tc"; "secosw"; "sesinw"; "k"]%string 1 (mkEl 10 2 (1 / 4) 1 30).
Proof.
  pose (el := mkEl 10 2 (1 / 4) 1 30).
  exists [("per1", 0); ("tc1", 1); ("secosw1", 2); ("sesinw1", 3); ("k1", 4)]%string%nat,
    (map (fun p => mkRow (Some (meaning el p)) true None false) ["per"; "tc"; "secosw"; "sesinw"; "k"]%string).
  split; [cbn; tauto|]. intros p Hp. fold el.
  cbn in Hp. decompose [or] Hp; try contradiction; subst p.
  - exists 0%nat. eexists. split; [reflexivity|]. split; reflexivity.
  - exists 1%nat. eexists. split; [reflexivity|]. split; reflexivity.
  - exists 2%nat. eexists. split; [reflexivity|]. split; reflexivity.
  - exists 3%nat. eexists. split; [reflexivity|]. split; reflexivity.
  - exists 4%nat. eexists. split; [reflexivity|]. split; reflexivity.
Qed.

Lemma ex_two_priors : forall pb, Forall2 (fun p r => prior_call pb [("k1"%string, 0%nat)] [mkRow (Some 3) true None false] p = Ok (Fin r))
  [PHard "k1" (Fin 1) PInf; PUser ["k1"%string] (fun xs => Ok (Fin (hd 0 xs))) None] [0; 3].
Proof.
  intro pb. constructor; [|constructor; [reflexivity|constructor]].
  unfold prior_call, prior_eval. unfold rowval. cbn -[rleb]. unfold ext_leb, rleb. destruct (Rle_dec 3 1); [lra|reflexivity].
Qed.

Lemma ex_posk finite pb : prior_eval finite pb [("k1"%string, 0%nat)] [mkRow (Some (-3)) true None false] (PPosK 1) = Ok (if finite then Fin (- 10 ^ 100) else NInf).
Proof.
  destruct (posk_spec finite pb [("k1"%string, 0%nat)] [mkRow (Some (-3)) true None false] 1 (fun _ => -3)) as [Q _].
  - intros n Hn. assert (n = 1%nat) as -> by lia. exists 0%nat. eexists. split; [reflexivity|]. split; reflexivity.
  - apply Q. exists 1%nat. split; [lia|lra].
Qed.

Lemma ex_reject : forall pb, Forall2 (fun p r => prior_call pb [("k1"%string, 0%nat)] [mkRow (Some (-3)) true None false] p = Ok r)
  [PHard "k1" NInf PInf; PPosK 1] [Fin 0; NInf].
Proof. intro pb. constructor; [reflexivity|]. constructor; [apply (ex_posk false)|constructor]. Qed.

Lemma ex_reject_finite : forall pb, Forall2 (fun p r => prior_call_finite pb [("k1"%string, 0%nat)] [mkRow (Some (-3)) true None false] p = Ok (Fin r))
  (filter prior_extra [PHard "k1" NInf PInf; PPosK 1]) [- 10 ^ 100].
Proof. intro pb. cbn [filter prior_extra]. constructor; [exact (ex_posk true pb)|constructor]. Qed.

Lemma ex_split : forall pb idx v p, In p [PGaussian "k1" 0 1; PEcc [1%nat] [1]; PPosK 2; PHard "per1" (Fin 1) (Fin 2)] ->
  splittable pb idx v p.
Proof. intros pb idx v p [<-|[<-|[<-|[<-|[]]]]]; apply library_splittable; exact I. Qed.
