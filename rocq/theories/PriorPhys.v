(** C24: EccentricityPrior and PositiveKPrior. *)
From Coq Require Import Reals String Arith Bool Lra Lia List.
From Verif Require Import Py PyFacts PyFloat PyFloatFacts Params ParamsProofs ParamsSpec Kepler Basis Prior PriorSpec PriorProofs.
Import ListNotations.
Open Scope R_scope.
#[local] Arguments key : simpl never.

(** planet [n] has elements [el], stored in the basis with parameters [names] *)
Definition planet_holds (idx : dict nat) (v : list row) (names : list string) (n : nat) (el : elements) : Prop :=
  forall p, In p names -> row_holds idx v (key p n) (meaning el p).

Lemma meaning_e el : meaning el "e" = el_e el. Proof. now destruct el. Qed.
Lemma meaning_se el : meaning el "se" = sqrt (el_e el). Proof. now destruct el. Qed.
Lemma meaning_secosw el : meaning el "secosw" = sqrt (el_e el) * cos (el_w el). Proof. now destruct el. Qed.
Lemma meaning_sesinw el : meaning el "sesinw" = sqrt (el_e el) * sin (el_w el). Proof. now destruct el. Qed.
Lemma meaning_ecosw el : meaning el "ecosw" = el_e el * cos (el_w el). Proof. now destruct el. Qed.
Lemma meaning_esinw el : meaning el "esinw" = el_e el * sin (el_w el). Proof. now destruct el. Qed.
Lemma meaning_k el : meaning el "k" = el_k el. Proof. now destruct el. Qed.
Lemma meaning_logk el : meaning el "logk" = ln (el_k el). Proof. now destruct el. Qed.

Lemma sq_cs e w : (e * cos w) ^ 2 + (e * sin w) ^ 2 = e ^ 2.
Proof. pose proof (sin2_cos2 w) as H. unfold Rsqr in H. replace ((e * cos w) ^ 2 + (e * sin w) ^ 2) with (e ^ 2 * (sin w * sin w + cos w * cos w)) by ring. rewrite H. ring. Qed.

Lemma ecc_of_ok b names idx v n el : In (b, names) FIT_BASES -> planet_holds idx v names n el ->
  In "e" names \/ 0 <= el_e el -> ecc_of (split b) idx v n = Ok (el_e el).
Proof.
  intros HF H HE.
  assert (forall p, In p names -> rowval idx v (key p n) = Ok (meaning el p)) as RV by (intros p Hp; apply holds_rowval; auto).
  clear H. unfold FIT_BASES in HF. repeat (destruct HF as [HF|HF]; [injection HF as <- <-|]); [.. |destruct HF];
    unfold ecc_of; match goal with |- context [split ?s] => let x := eval vm_compute in (split s) in change (split s) with x end;
    cbn [str_mem existsb String.eqb Ascii.eqb Bool.eqb orb];
    repeat (rewrite RV by (cbn; tauto); cbn [bind]);
    rewrite ?meaning_e, ?meaning_se, ?meaning_secosw, ?meaning_sesinw, ?meaning_ecosw, ?meaning_esinw; auto;
    assert (0 <= el_e el) as E0 by (destruct HE as [HE|HE]; [cbn in HE; repeat (destruct HE as [HE|HE]; [discriminate|]); destruct HE|exact HE]);
    f_equal; rewrite ?sq_cs; [..|apply pow2_sqrt; exact E0]; try (apply pow2_sqrt; exact E0); try (apply sqrt_pow2; exact E0).
Qed.

Lemma ecc_loop_ok b names idx v finite (E : nat -> elements) : In (b, names) FIT_BASES ->
  forall pl lims, length lims = length pl ->
  (forall n, In n pl -> planet_holds idx v names n (E n)) ->
  (forall n, In n pl -> In "e" names \/ 0 <= el_e (E n)) ->
  exists o, ecc_loop finite (split b) idx v pl lims = Ok o /\
    ((exists n u, In (n, u) (combine pl lims) /\ ~ (0 <= el_e (E n) <= u)) /\ o = Some (reject finite) \/
     (forall n u, In (n, u) (combine pl lims) -> 0 <= el_e (E n) <= u) /\ o = None).
Proof.
  intro HF. induction pl as [|n pl IH]; intros [|u lims] HL HH HE; try discriminate HL.
  - exists None. split; [reflexivity|]. right. split; auto. intros ? ? [].
  - cbn [ecc_loop]. rewrite (ecc_of_ok b names idx v n (E n) HF) by (auto with datatypes). cbn [bind].
    destruct (rltb u (el_e (E n)) || rltb (el_e (E n)) 0) eqn:Q.
    + exists (Some (reject finite)). split; [reflexivity|]. left. split; auto. exists n, u. split; [now left|].
      apply orb_true_iff in Q. rewrite !rltb_true in Q. lra.
    + apply orb_false_iff in Q. rewrite !rltb_false in Q.
      destruct (IH lims) as (o & Ho & D); auto with datatypes.
      exists o. split; auto. destruct D as [[(m & w & Hm & N) ->]|[A ->]].
      * left. split; auto. exists m, w. split; auto. now right.
      * right. split; auto. intros m w [Em|Hm]; [injection Em as <- <-; lra|auto].
Qed.

Lemma ext_sum_logs lims : (forall u, In u lims -> 0 < u) ->
  ext_opp (ext_sum (map (fun u => ext_log (Fin u)) lims)) = Fin (- rsum (map ln lims)).
Proof.
  intro H. rewrite (map_ext_in _ (fun u => Fin (ln u))) by (intros u Hu; apply ext_log_fin; auto).
  rewrite <- map_map, ext_sum_fin. reflexivity.
Qed.

(** EccentricityPrior in every basis, with and without finite=True *)
Lemma ecc_prior_spec finite pb b names idx v pl lims (E : nat -> elements) :
  In (b, names) FIT_BASES -> b_name pb = b -> length lims = length pl -> (forall u, In u lims -> 0 < u) ->
  (forall n, In n pl -> planet_holds idx v names n (E n)) ->
  (forall n, In n pl -> In "e" names \/ 0 <= el_e (E n)) ->
  let bad := exists n u, In (n, u) (combine pl lims) /\ ~ (0 <= el_e (E n) <= u) in
  (bad -> prior_eval finite pb idx v (PEcc pl lims) = Ok (if finite then Fin (- 10 ^ 100) else NInf)) /\
  (~ bad -> prior_eval finite pb idx v (PEcc pl lims) = Ok (Fin (- rsum (map ln lims)))).
Proof.
  intros HF HB HL HP HH HE bad. cbn [prior_eval]. unfold ecc_call. rewrite HB.
  destruct (ecc_loop_ok b names idx v finite E HF pl lims HL HH HE) as (o & -> & D). cbn [bind].
  destruct D as [[B ->]|[A ->]].
  - split; [reflexivity|]. intro N. now destruct N.
  - split; [intros (n & u & Hn & N); now apply A in Hn|]. intros _. now rewrite ext_sum_logs.
Qed.

(** PositiveKPrior where the k of each planet is stored as k *)
Lemma posk_spec finite pb idx v num (K : nat -> R) :
  (forall n, (1 <= n <= num)%nat -> row_holds idx v (key "k" n) (K n)) ->
  let bad := exists n, (1 <= n <= num)%nat /\ K n < 0 in
  (bad -> prior_eval finite pb idx v (PPosK num) = Ok (if finite then Fin (- 10 ^ 100) else NInf)) /\
  (~ bad -> prior_eval finite pb idx v (PPosK num) = Ok (Fin 0)).
Proof.
  intros H bad. cbn [prior_eval].
  assert (forall ns, (forall n, In n ns -> (1 <= n <= num)%nat) ->
    ((exists n, In n ns /\ K n < 0) -> posk_loop finite idx v ns = Ok (reject finite)) /\
    ((forall n, In n ns -> 0 <= K n) -> posk_loop finite idx v ns = Ok (Fin 0))) as Q.
  { induction ns as [|n ns IH]; intro R.
    - split; [intros (n & [] & _)|reflexivity].
    - cbn [posk_loop]. assert (k_of idx v n = Ok (K n)) as ->.
      { destruct (H n) as (i & r & D & N & V); [auto with datatypes|]. unfold k_of. rewrite D. unfold vget. now rewrite N, V. }
      cbn [bind]. destruct IH as [I1 I2]; [auto with datatypes|]. destruct (rltb (K n) 0) eqn:E.
      + split; [reflexivity|]. intro A. apply rltb_true in E. specialize (A n (or_introl eq_refl)). lra.
      + apply rltb_false in E. split.
        * intros (m & [<-|Hm] & N); [lra|apply I1; eauto].
        * intro A. apply I2. auto with datatypes. }
  destruct (Q (seq 1 num)) as [Q1 Q2]; [intros n Hn; apply in_seq in Hn; lia|]. split.
  - intros (n & Hn & N). apply Q1. exists n. split; auto. apply in_seq. lia.
  - intro N. apply Q2. intros n Hn. apply in_seq in Hn. destruct (Rle_dec 0 (K n)); auto. destruct N. exists n. split; [lia|lra].
Qed.

(** in a logk basis the slot of k holds log K, and it is log K that is tested *)
Lemma logk_slot num keys v n x : (1 <= n <= num)%nat ->
  row_holds (init_index_dict num keys) v (key "logk" n) x -> row_holds (init_index_dict num keys) v (key "k" n) x.
Proof.
  intros Hn (i & r & D & N & V). exists i, r. split; auto. rewrite <- D.
  rewrite !index_planet by (auto; cbn; tauto). reflexivity.
Qed.

Lemma posk_logk_spec finite pb num keys v (K : nat -> R) :
  (forall n, (1 <= n <= num)%nat -> 0 < K n /\ row_holds (init_index_dict num keys) v (key "logk" n) (ln (K n))) ->
  let bad := exists n, (1 <= n <= num)%nat /\ K n < 1 in
  (bad -> prior_eval finite pb (init_index_dict num keys) v (PPosK num) = Ok (if finite then Fin (- 10 ^ 100) else NInf)) /\
  (~ bad -> prior_eval finite pb (init_index_dict num keys) v (PPosK num) = Ok (Fin 0)).
Proof.
  intros H bad. destruct (posk_spec finite pb (init_index_dict num keys) v num (fun n => ln (K n))) as [A B].
  { intros n Hn. apply logk_slot; auto. apply (H n Hn). }
  split.
  - intros (n & Hn & N). apply A. exists n. split; auto. rewrite <- ln_1. apply ln_increasing; [apply H; auto|lra].
  - intro N. apply B. intros (n & Hn & L). apply N. exists n. split; auto. destruct (H n Hn) as [P _].
    destruct (Rlt_dec (K n) 1); auto. assert (ln 1 <= ln (K n)); [|rewrite ln_1 in *; lra].
    destruct (Req_dec (K n) 1) as [->|]; [lra|]. left. apply ln_increasing; lra.
Qed.

(** a planet with K = 1/2 m/s, stored in a logk basis, is rejected *)
Lemma posk_logk_rejects : exists names v el,
  In ("per tc secosw sesinw logk", names) FIT_BASES /\ el_k el = 1 / 2 /\
  let keys := default_keys 1 names in
  planet_holds (init_index_dict 1 keys) v names 1 el /\
  prior_call (basis_init "per tc secosw sesinw logk" 1) (init_index_dict 1 keys) v (PPosK 1) = Ok NInf.
Proof.
  set (names := ["per"; "tc"; "secosw"; "sesinw"; "logk"]). set (el := mkEl 10 3 0 0 (1 / 2)).
  exists names, (map (fun p => mkRow (Some (meaning el p)) true None false) names ++ [zero_row; zero_row])%list, el.
  split; [cbn; tauto|]. split; [reflexivity|]. intro keys.
  set (v := (map (fun p => mkRow (Some (meaning el p)) true None false) names ++ [zero_row; zero_row])%list).
  assert (planet_holds (init_index_dict 1 keys) v names 1 el) as PH.
  { intros p Hp. unfold row_holds. unfold names in Hp. cbn in Hp.
    assert (forall i q, dget (init_index_dict 1 keys) (key q 1) = Some i -> nth_error names i = Some q ->
       exists i0 r, dget (init_index_dict 1 keys) (key q 1) = Some i0 /\ nth_error v i0 = Some r /\ r_val r = Some (meaning el q)) as Q.
    { intros i q D N. exists i, (mkRow (Some (meaning el q)) true None false). split; auto. split; [|reflexivity].
      unfold v. rewrite nth_error_app1 by (rewrite map_length; apply nth_error_Some; congruence).
      rewrite nth_error_map, N. reflexivity. }
    destruct Hp as [<-|[<-|[<-|[<-|[<-|[]]]]]];
      (eapply Q; [rewrite index_planet by (try lia; cbn; tauto); reflexivity|reflexivity]). }
  split; [exact PH|].
  destruct (posk_logk_spec false (basis_init "per tc secosw sesinw logk" 1) 1 keys v (fun _ => 1 / 2)) as [Q _].
  - intros n Hn. assert (n = 1)%nat as -> by lia. split; [lra|].
    pose proof (PH "logk" ltac:(cbn; tauto)) as Z. rewrite meaning_logk in Z. exact Z.
  - apply Q. exists 1%nat. split; [lia|lra].
Qed.
