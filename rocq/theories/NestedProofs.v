From Coq Require Import Reals String Ascii Bool Lra Lia List.
From Verif Require Import Py PyFacts PyFloat Mass Nested.
Import ListNotations.
Open Scope string_scope.

(** ** guards: nothing started, nothing touched *)
Lemma run_guard ps post d sampler sk rk w : np_check post = Ok tt -> exists_path w (results_path d) = true ->
  run ps post (Some d) false false sampler sk rk w = mkOut w sk rk (Err FileExistsError).
Proof. intros C E. unfold run. rewrite C. cbn [orb negb]. now rewrite E. Qed.

Lemma run_improper ps post out overwrite proceed sampler sk rk w e : np_check post = Err e ->
  run ps post out overwrite proceed sampler sk rk w = mkOut w sk rk (Err e).
Proof. intro C. unfold run. now rewrite C. Qed.

Definition known : list string := ["ultranest"; "dynesty-static"; "dynesty-dynamic"; "multinest"; "pymultinest"; "nautilus"].
Lemma caller_or_new k : caller k (or_new k) = k.
Proof. destruct k as [[|? ?]|]; reflexivity. Qed.
Lemma run_unknown ps post out overwrite proceed sampler sk rk w : np_check post = Ok tt ->
  ~ In (lower sampler) known ->
  exists e, run ps post out overwrite proceed sampler sk rk w = mkOut w sk rk (Err e) /\ (e = ValueError \/ e = FileExistsError).
Proof.
  intros C N. unfold run. rewrite C.
  destruct (match out with Some d => _ | None => _ end); [eexists; split; [reflexivity|auto]|].
  exists ValueError. split; [|auto]. unfold dispatch.
  assert (forall x, In x known -> String.eqb (lower sampler) x = false) as E.
  { intros x Hx. apply String.eqb_neq. intros <-. auto. }
  rewrite (E "pymultinest") by (cbn; tauto). rewrite !E by (cbn; tauto). cbn. now rewrite !caller_or_new.
Qed.

(** ** the saved file *)
Lemma put_same w p f : w_files (put_file w p f) p = Some f.
Proof. unfold put_file. cbn. now rewrite String.eqb_refl. Qed.
Lemma put_other w p q f : q <> p -> w_files (put_file w p f) q = w_files w q.
Proof. intro N. unfold put_file. cbn. now rewrite (proj2 (String.eqb_neq q p) N). Qed.

Lemma run_saves ps post d overwrite proceed sampler sk rk w r :
  o_res (run ps post (Some d) overwrite proceed sampler sk rk w) = Ok r ->
  load_results (o_w (run ps post (Some d) overwrite proceed sampler sk rk w)) (results_path d) = Ok r.
Proof.
  unfold run. destruct (np_check post); [|discriminate]. destruct (exists_path w (results_path d) && _); [discriminate|].
  destruct (dispatch _ _ _ _ _ _ _ _) as [s [ns|]]; [|discriminate]. destruct (to_frame post ns) as [f|]; [|discriminate].
  cbn [o_res o_w]. intro H. inversion H; subst. unfold load_results, write_results. rewrite put_same. reflexivity.
Qed.
(** only the results file is written by the driver itself after the back end returned *)
Lemma run_frame ps post out overwrite proceed sampler sk rk w r :
  o_res (run ps post out overwrite proceed sampler sk rk w) = Ok r ->
  exists s ns, dispatch ps post sampler out (overwrite || proceed) proceed (or_new sk) (mkSt w (or_new sk) (or_new rk)) = (s, Ok ns) /\
    r_lnZ r = ns_lnZ ns /\ r_lnZerr r = ns_lnZerr ns /\
    (forall p, (forall d, out = Some d -> p <> results_path d) -> w_files (o_w (run ps post out overwrite proceed sampler sk rk w)) p = w_files (s_w s) p) /\
    exists names, np_names post = Ok names /\ f_cols (r_samples r) = (names ++ ["lnprobability"])%list /\
      Forall2 (fun x row => length x = length names /\ exists lp, np_logprob post x = Ok lp /\ row = (map Fin x ++ [lp])%list) (ns_samples ns) (f_rows (r_samples r)).
Proof.
  unfold run. destruct (np_check post); [|discriminate]. destruct (match out with Some d => _ | None => _ end); [discriminate|].
  destruct (dispatch _ _ _ _ _ _ _ _) as [s [ns|]] eqn:D; [|discriminate]. destruct (to_frame post ns) as [f|] eqn:F; [|discriminate].
  cbn [o_res o_w]. intro H. inversion H; subst. exists s, ns. split; auto. cbn [r_lnZ r_lnZerr r_samples]. split; auto. split; auto. split.
  - intros p Hp. destruct out as [d|]; auto. unfold write_results. rewrite !put_other by (now apply Hp). reflexivity.
  - unfold to_frame in F. destruct (np_names post) as [names|]; cbn [bind] in F; [|discriminate]. exists names. split; auto.
    destruct (forallb _ _) eqn:L; [|discriminate]. destruct (map_res _ (ns_samples ns)) as [rows|] eqn:Mr; cbn [bind] in F; [|discriminate].
    inversion F; subst. split; auto. cbn [f_rows]. clear - L Mr. revert rows Mr L. induction (ns_samples ns) as [|x l IH]; intros rows Mr L; cbn in Mr, L.
    + inversion Mr. constructor.
    + destruct (np_logprob post x) as [lp|] eqn:E; cbn [bind] in Mr; [|discriminate].
      destruct (map_res _ l) as [rs|] eqn:E2; cbn [bind] in Mr; [|discriminate]. inversion Mr; subst.
      apply andb_true_iff in L. destruct L as [L1 L2]. apply Nat.eqb_eq in L1. constructor; [split; auto; eauto|]. now apply IH.
Qed.

(** ** the caller's dictionaries *)
Lemma caller_empty k d : k = None \/ k = Some [] -> caller k d = k.
Proof. intros [->| ->]; reflexivity. Qed.
Lemma run_callers ps post out overwrite proceed sampler sk rk w : 
  (sk = None \/ sk = Some [] -> o_sk (run ps post out overwrite proceed sampler sk rk w) = sk) /\
  (rk = None \/ rk = Some [] -> o_rk (run ps post out overwrite proceed sampler sk rk w) = rk).
Proof.
  unfold run. destruct (np_check post); [|auto]. destruct (match out with Some d => _ | None => _ end); [auto|].
  destruct (dispatch _ _ _ _ _ _ _ _) as [s [ns|]]; [destruct (to_frame post ns)|]; cbn [o_sk o_rk]; split; apply caller_empty.
Qed.

(** the keys a back end may add or change *)
Definition managed : list string := ["resume"; "checkpoint_file"; "log_dir"; "outputfiles_basename"; "filepath"; "verbose"].
Definition same_else (a b : kwargs) : Prop := forall k, ~ In k managed -> dget b k = dget a k.
Definition keeps {A} (m : M A) : Prop := forall s, same_else (s_sk s) (s_sk (fst (m s))) /\ same_else (s_rk s) (s_rk (fst (m s))).

Lemma same_refl a : same_else a a. Proof. intros k _. reflexivity. Qed.
Lemma same_trans a b c : same_else a b -> same_else b c -> same_else a c.
Proof. intros H1 H2 k N. rewrite H2, H1; auto. Qed.
Lemma keeps_id {A} (m : M A) : (forall s, s_sk (fst (m s)) = s_sk s /\ s_rk (fst (m s)) = s_rk s) -> keeps m.
Proof. intros H s. destruct (H s) as [-> ->]. split; apply same_refl. Qed.
Lemma keeps_ret {A} (a : A) : keeps (ret a). Proof. apply keeps_id. auto. Qed.
Lemma keeps_fail {A} e : keeps (@fail A e). Proof. apply keeps_id. auto. Qed.
Lemma keeps_get {A} (f : st -> A) : keeps (get f). Proof. apply keeps_id. auto. Qed.
Lemma keeps_lift {A} (r : res A) : keeps (lift r). Proof. apply keeps_id. auto. Qed.
Lemma keeps_call {A} (f : world -> world * res A) : keeps (call f).
Proof. apply keeps_id. intro s. unfold call. destruct (f (s_w s)). auto. Qed.
Lemma keeps_bind {A B} (m : M A) (k : A -> M B) : keeps m -> (forall a, keeps (k a)) -> keeps (mbind m k).
Proof.
  intros Hm Hk s. unfold mbind. specialize (Hm s). destruct (m s) as [s1 [a|e]]; cbn [fst] in *; auto.
  destruct Hm as [H1 H2]. destruct (Hk a s1) as [H3 H4]. split; eapply same_trans; eauto.
Qed.
Lemma dset_same a k v : In k managed -> same_else a (dset a k v).
Proof. intros Hk q N. apply dget_dset_other. intros ->. auto. Qed.
Lemma keeps_set_s k v : In k managed -> keeps (set_s k v).
Proof. intros Hk s. split; [now apply dset_same|apply same_refl]. Qed.
Lemma keeps_set_r k v : In k managed -> keeps (set_r k v).
Proof. intros Hk s. split; [apply same_refl|now apply dset_same]. Qed.
Lemma keeps_when b m : keeps m -> keeps (when b m).
Proof. intro H. destruct b; [exact H|apply keeps_ret]. Qed.
Lemma keeps_absent_s k : keeps (absent_s k).
Proof. apply keeps_bind; [apply keeps_get|]. intro a. unfold require. destruct (negb _); [apply keeps_ret|apply keeps_fail]. Qed.
Lemma keeps_absent_r k : keeps (absent_r k).
Proof. apply keeps_bind; [apply keeps_get|]. intro a. unfold require. destruct (negb _); [apply keeps_ret|apply keeps_fail]. Qed.

Ltac keeps_tac := repeat first
  [ apply keeps_absent_s | apply keeps_absent_r | apply keeps_when | apply keeps_bind; [|intro] | apply keeps_ret | apply keeps_fail | apply keeps_get | apply keeps_lift | apply keeps_call
  | apply keeps_set_s; cbn; tauto | apply keeps_set_r; cbn; tauto
  | match goal with |- keeps (if ?b then _ else _) => destruct b | |- keeps (match ?o with Some _ => _ | None => _ end) => destruct o end ].
Lemma keeps_dispatch ps post sampler out overwrite proceed k : keeps (dispatch ps post sampler out overwrite proceed k).
Proof.
  unfold dispatch. cbv zeta. set (s := if String.eqb _ "pymultinest" then _ else _).
  destruct (String.eqb s "ultranest"); [unfold run_ultranest; keeps_tac|].
  destruct (String.eqb s "dynesty-static"); [unfold run_dynesty; keeps_tac|].
  destruct (String.eqb s "dynesty-dynamic"); [unfold run_dynesty; keeps_tac|].
  destruct (String.eqb s "multinest"); [destruct k; [unfold run_multinest; cbv zeta; keeps_tac|apply keeps_fail]|].
  destruct (String.eqb s "nautilus"); [unfold run_nautilus; keeps_tac|apply keeps_fail].
Qed.

Lemma run_callers_managed ps post out overwrite proceed sampler sk rk w k : ~ In k managed ->
  (forall d, sk = Some d -> exists d', o_sk (run ps post out overwrite proceed sampler sk rk w) = Some d' /\ dget d' k = dget d k) /\
  (forall d, rk = Some d -> exists d', o_rk (run ps post out overwrite proceed sampler sk rk w) = Some d' /\ dget d' k = dget d k).
Proof.
  intro N. unfold run. destruct (np_check post); [|split; intros d ->; eexists; split; reflexivity].
  destruct (match out with Some d => _ | None => _ end); [split; intros d ->; eexists; split; reflexivity|].
  pose proof (keeps_dispatch ps post sampler out (overwrite || proceed) proceed (or_new sk) (mkSt w (or_new sk) (or_new rk))) as [K1 K2].
  destruct (dispatch _ _ _ _ _ _ _ _) as [s r]. cbn [fst s_sk s_rk] in K1, K2. specialize (K1 k N). specialize (K2 k N).
  assert (forall o d0 d', (forall d, o = Some d -> d0 = d) -> dget d' k = dget d0 k -> forall d, o = Some d -> exists d'', caller o d' = Some d'' /\ dget d'' k = dget d k) as G.
  { intros o d0 d' H0 E d ->. rewrite (H0 d eq_refl) in E. destruct d as [|x d]; cbn; eauto. }
  assert (forall d, sk = Some d -> or_new sk = d) as A1 by (intros d ->; reflexivity).
  assert (forall d, rk = Some d -> or_new rk = d) as A2 by (intros d ->; reflexivity).
  destruct r as [ns|e]; [destruct (to_frame post ns)|]; cbn [o_sk o_rk]; split; eauto.
Qed.

(** ** calling twice with the same dictionary *)
Definition dynesty_name (s : string) : Prop := lower s = "dynesty-static" \/ lower s = "dynesty-dynamic".
Lemma dispatch_dynesty ps post sampler out overwrite proceed k : dynesty_name sampler ->
  exists p, dispatch ps post sampler out overwrite proceed k = run_dynesty p (np_names post) out proceed.
Proof.
  intros [E|E]; unfold dispatch; rewrite E; cbn [String.eqb Ascii.eqb Bool.eqb]; eauto.
Qed.

(** a computation that never removes a key of the run dictionary *)
Definition grows {A} (m : M A) : Prop := forall s k, dmem (s_rk s) k = true -> dmem (s_rk (fst (m s))) k = true.
Lemma dmem_dset_mono (d : kwargs) k v q : dmem d q = true -> dmem (dset d k v) q = true.
Proof.
  unfold dmem. destruct (string_dec q k) as [->|N].
  - now rewrite dget_dset_same.
  - now rewrite dget_dset_other.
Qed.
Lemma grows_id {A} (m : M A) : (forall s, s_rk (fst (m s)) = s_rk s) -> grows m.
Proof. intros H s k. now rewrite H. Qed.
Lemma grows_bind {A B} (m : M A) (k : A -> M B) : grows m -> (forall a, grows (k a)) -> grows (mbind m k).
Proof. intros Hm Hk s q H. unfold mbind. specialize (Hm s q H). destruct (m s) as [s1 [a|e]]; cbn [fst] in *; auto. now apply Hk. Qed.
Lemma grows_call {A} (f : world -> world * res A) : grows (call f).
Proof. apply grows_id. intro s. unfold call. destruct (f (s_w s)). auto. Qed.
Lemma grows_set_r k v : grows (set_r k v).
Proof. intros s q H. now apply dmem_dset_mono. Qed.
Lemma grows_absent k : grows (absent_r k).
Proof. apply grows_id. intro s. unfold absent_r, mbind, get, require. destruct (negb _); reflexivity. Qed.
Lemma grows_when b m : grows m -> grows (when b m).
Proof. intro H. destruct b; [exact H|apply grows_id; auto]. Qed.
Ltac grows_tac := repeat first
  [ apply grows_absent | apply grows_set_r | apply grows_when | apply grows_bind; [|intro] | apply grows_call
  | match goal with |- grows (if ?b then _ else _) => destruct b | |- grows (match ?o with Some _ => _ | None => _ end) => destruct o end
  | apply grows_id; intro; reflexivity ].

Lemma sets_then {A} k v (rest : M A) s : grows rest -> dmem (s_rk s) k = false ->
  dmem (s_rk (fst ((absent_r k ;~ set_r k v ;~ rest) s))) k = true.
Proof.
  intros G N. unfold mbind at 1, absent_r, mbind, get. rewrite N. cbn [negb require ret set_r].
  apply G. cbn. unfold dmem. now rewrite dget_dset_same.
Qed.
Lemma dynesty_sets_resume p names out proceed s : dmem (s_rk s) "resume" = false ->
  dmem (s_rk (fst (run_dynesty p names out proceed s))) "resume" = true.
Proof. intro N. unfold run_dynesty. apply sets_then; auto. grows_tac. Qed.
Lemma dynesty_refuses p names out proceed s : dmem (s_rk s) "resume" = true -> run_dynesty p names out proceed s = (s, Err ValueError).
Proof. intro H. unfold run_dynesty, mbind, absent_r, mbind, get. rewrite H. reflexivity. Qed.

Lemma dynesty_second_call ps post out overwrite proceed sampler sk rk w : np_check post = Ok tt -> dynesty_name sampler ->
  rk <> [] -> dmem rk "resume" = false ->
  (forall d, out = Some d -> exists_path w (results_path d) && negb (overwrite || proceed) = false) ->
  let o := run ps post out overwrite proceed sampler sk (Some rk) w in
  o_rk o <> Some rk /\
  forall ps' w', exists e, run ps' post out overwrite proceed sampler (o_sk o) (o_rk o) w' = mkOut w' (o_sk o) (o_rk o) (Err e) /\
    (e = ValueError \/ e = FileExistsError).
Proof.
  intros C D N R G. unfold run at 1. rewrite C.
  assert (match out with Some d => exists_path w (results_path d) && negb (overwrite || proceed) | None => false end = false) as -> by (destruct out; auto).
  destruct (dispatch_dynesty ps post sampler out (overwrite || proceed) proceed (or_new sk) D) as [p Ep]. rewrite Ep.
  cbn [or_new]. set (s0 := mkSt w (or_new sk) rk). pose proof (dynesty_sets_resume p (np_names post) out proceed s0 R) as S.
  destruct (run_dynesty p (np_names post) out proceed s0) as [s r]. cbn [fst] in S.
  assert (caller (Some rk) (s_rk s) = Some (s_rk s)) as Ec by (destruct rk; [easy|reflexivity]).
  assert (Some (s_rk s) <> Some rk) as Ne. { intro E. inversion E as [E1]. rewrite E1 in S. congruence. }
  set (o := match r with Ok _ => _ | Err _ => _ end).
  assert (o_rk o = Some (s_rk s)) as Er. { unfold o. destruct r as [ns|]; [destruct (to_frame post ns)|]; exact Ec. }
  cbv zeta. split; [now rewrite Er|]. intros ps' w'. rewrite Er. unfold run. rewrite C.
  destruct (match out with Some d => _ | None => _ end); [eexists; split; [reflexivity|auto]|].
  exists ValueError. split; [|auto].
  destruct (dispatch_dynesty ps' post sampler out (overwrite || proceed) proceed (or_new (o_sk o)) D) as [p' Ep']. rewrite Ep'.
  cbn [or_new]. rewrite dynesty_refuses by exact S. cbn [s_w s_sk s_rk]. rewrite caller_or_new. f_equal. destruct (s_rk s); reflexivity.
Qed.

(** ** concrete packages *)
Definition quiet : package := mkPkg (fun _ w => (w, Ok tt)) (fun _ w => (w, Ok tt)) (fun _ w => (w, Ok (mkNs [[1%R]] 2 3)))
  (fun p w => (put_file w p (FOther 0), Ok tt)).
Definition quiets : packages := mkPkgs quiet quiet quiet quiet quiet.
Definition post1 : nspost := mkNsPost (Ok tt) (Ok ["k1"]) (fun _ => Ok (Fin 0)).
Definition empty_world : world := mkWorld (fun _ => None) (fun _ => false).

Lemma caller_changed : 
  let rk := Some [("maxiter", POther 10)] in
  let o := run quiets post1 None false false "dynesty-static" None rk empty_world in
  (exists r, o_res o = Ok r) /\ o_rk o <> rk /\
  o_res (run quiets post1 None false false "dynesty-static" None (o_rk o) empty_world) = Err ValueError.
Proof. cbv zeta. split; [eexists; reflexivity|]. split; [discriminate|reflexivity]. Qed.

(** ** a run without output directory *)
(** packages that leave the file system alone *)
Definition harmless (p : package) : Prop :=
  (forall k w, fst (pk_new p k w) = w) /\ (forall c w, fst (pk_restore p c w) = w) /\ (forall k w, fst (pk_run p k w) = w).
Definition still {A} (m : M A) : Prop := forall s, s_w (fst (m s)) = s_w s.
Lemma still_bind {A B} (m : M A) (k : A -> M B) : still m -> (forall a, still (k a)) -> still (mbind m k).
Proof. intros Hm Hk s. unfold mbind. specialize (Hm s). destruct (m s) as [s1 [a|e]]; cbn [fst] in *; auto. rewrite Hk. exact Hm. Qed.
Lemma still_call {A} (f : world -> world * res A) : (forall w, fst (f w) = w) -> still (call f).
Proof. intros H s. unfold call. specialize (H (s_w s)). destruct (f (s_w s)). exact H. Qed.
Lemma still_absent_r k : still (absent_r k).
Proof. intro s. unfold absent_r, mbind, get, require. destruct (negb _); reflexivity. Qed.
Lemma still_absent_s k : still (absent_s k).
Proof. intro s. unfold absent_s, mbind, get, require. destruct (negb _); reflexivity. Qed.
Lemma still_when b m : still m -> still (when b m).
Proof. intro H. destruct b; [exact H|intro; reflexivity]. Qed.
Ltac still_tac := repeat first
  [ apply still_absent_r | apply still_absent_s | apply still_when | apply still_bind; [|intro] | apply still_call
  | intro; reflexivity ].

Lemma no_output_still ps post overwrite proceed sampler sk rk w :
  harmless (p_static ps) -> harmless (p_dynamic ps) -> harmless (p_ultranest ps) -> harmless (p_nautilus ps) ->
  lower sampler <> "multinest" -> lower sampler <> "pymultinest" ->
  o_w (run ps post None overwrite proceed sampler sk rk w) = w.
Proof.
  intros H1 H2 H3 H4 N1 N2. unfold run. destruct (np_check post); [|reflexivity].
  assert (still (dispatch ps post sampler None (overwrite || proceed) proceed (or_new sk))) as S.
  { unfold dispatch. cbv zeta. rewrite (proj2 (String.eqb_neq _ _) N2). rewrite (proj2 (String.eqb_neq (lower sampler) "multinest") N1).
    destruct H1 as (A1 & B1 & C1), H2 as (A2 & B2 & C2), H3 as (A3 & B3 & C3), H4 as (A4 & B4 & C4).
    destruct (String.eqb (lower sampler) "ultranest"); [unfold run_ultranest; still_tac; auto|].
    destruct (String.eqb (lower sampler) "dynesty-static"); [unfold run_dynesty; still_tac; auto|].
    destruct (String.eqb (lower sampler) "dynesty-dynamic"); [unfold run_dynesty; still_tac; auto|].
    destruct (String.eqb (lower sampler) "nautilus"); [unfold run_nautilus; still_tac; auto|intro; reflexivity]. }
  specialize (S (mkSt w (or_new sk) (or_new rk))). destruct (dispatch _ _ _ _ _ _ _ _) as [s [ns|e]]; cbn [fst s_w] in S; [destruct (to_frame post ns)|]; exact S.
Qed.

(** multinest removes ./tmpdir and everything in it, whoever made it *)
Definition notes_world : world := mkWorld (fun p => if String.eqb p "tmpdir/notes.txt" then Some (FOther 7) else None) (fun p => String.eqb p "tmpdir").
Lemma tmpdir_lost : 
  w_files notes_world "tmpdir/notes.txt" = Some (FOther 7) /\
  let o := run quiets post1 None false false "multinest" None None notes_world in
  (exists r, o_res o = Ok r) /\ w_files (o_w o) "tmpdir/notes.txt" = None /\ w_dirs (o_w o) "tmpdir" = false.
Proof. split; [reflexivity|]. cbv zeta. split; [eexists; reflexivity|]. split; reflexivity. Qed.
Lemma multinest_removes ps post overwrite proceed sampler sk rk w r : lower sampler = "multinest" \/ lower sampler = "pymultinest" ->
  o_res (run ps post None overwrite proceed sampler sk rk w) = Ok r ->
  forall p, inside "tmpdir" p = true -> w_files (o_w (run ps post None overwrite proceed sampler sk rk w)) p = None.
Proof.
  intros E. unfold run. destruct (np_check post); [|discriminate]. intros H p Hp.
  assert (exists k : kwargs, dispatch ps post sampler None (overwrite || proceed) proceed (or_new sk) =
    match k with [] => run_multinest (p_multinest ps) (np_names post) None (overwrite || proceed) proceed | _ => fail TypeError end) as [k Ek].
  { exists (or_new sk). unfold dispatch. destruct E as [-> | ->]; reflexivity. }
  rewrite Ek in *. destruct k; [|discriminate H].
  set (s0 := mkSt w _ _) in *. clear Ek.
  assert (forall s1 ns, run_multinest (p_multinest ps) (np_names post) None (overwrite || proceed) proceed s0 = (s1, Ok ns) -> w_files (s_w s1) p = None) as K.
  { clear H. clearbody s0. intros s1 ns. unfold run_multinest. cbv zeta. cbn [is_some negb orb].
    unfold absent_r, mbind, get, require, set_r, lift, when, ret, fail. cbn.
    destruct (negb (dmem (s_rk s0) _)); [|discriminate]. cbn. destruct (negb _); [|discriminate]. cbn.
    unfold call. cbn [s_w s_sk s_rk]. destruct (makedirs true "tmpdir" (s_w s0)) as [w1 [?|?]]; [|discriminate].
    destruct (np_names post); [|discriminate]. cbn [s_w s_sk s_rk]. destruct (pk_run _ _ w1) as [w2 [r2|]]; [|discriminate].
    cbn [s_w s_sk s_rk]. unfold rmtree. destruct (w_dirs w2 "tmpdir"); [|discriminate]. intro E1. inversion E1; subst.
    cbn [s_w w_files]. now rewrite Hp. }
  destruct (run_multinest _ _ _ _ _ s0) as [s1 [ns|e]]; [|discriminate H]. destruct (to_frame post ns); [|discriminate H].
  cbn [o_w]. eapply K. reflexivity.
Qed.

(** ** overwrite=True with dynesty: an existing directory without sampler.save is refused *)
Lemma dynesty_existing_dir ps post d proceed overwrite sampler sk rk w : np_check post = Ok tt -> dynesty_name sampler ->
  overwrite || proceed = true -> harmless (p_static ps) -> harmless (p_dynamic ps) -> 
  w_dirs w d = true -> exists_path w (join d "sampler.save") = false ->
  o_w (run ps post (Some d) overwrite proceed sampler sk rk w) = w /\
  exists e, o_res (run ps post (Some d) overwrite proceed sampler sk rk w) = Err e.
Proof.
  intros C D O H1 H2 W X. unfold run. rewrite C, O, andb_false_r.
  assert (exists p, (p = p_static ps \/ p = p_dynamic ps) /\ dispatch ps post sampler (Some d) true proceed (or_new sk) = run_dynesty p (np_names post) (Some d) proceed) as (p & Hp & ->).
  { destruct D as [E|E]; unfold dispatch; rewrite E; cbn [String.eqb Ascii.eqb Bool.eqb]; eauto. }
  assert (harmless p) as (A & B & R) by (destruct Hp as [-> | ->]; auto). clear Hp H1 H2.
  set (s0 := mkSt w _ _).
  assert (exists s1 e, run_dynesty p (np_names post) (Some d) proceed s0 = (s1, Err e) /\ s_w s1 = w) as (s1 & e & E1 & E2).
  { unfold run_dynesty, absent_r, mbind, get, require, set_r, lift, when, ret, fail. cbv beta zeta. cbn [s0 s_w s_sk s_rk].
    destruct (negb (dmem (or_new rk) _)); cbn [s_w s_sk s_rk]; [|eauto].
    destruct (negb _); cbn [s_w s_sk s_rk]; [|eauto]. unfold s0. cbn [s_w s_sk s_rk]. rewrite X, andb_false_r.
    destruct (np_names post); [|eauto]. unfold call. cbn [s_w s_sk s_rk].
    pose proof (A (or_new sk) w) as A1. destruct (pk_new p (or_new sk) w) as [w1 [[]|]]; cbn [fst] in A1; subst w1; [|eauto]. cbn [s_w s_sk s_rk].
    rewrite X. cbn [negb]. destruct (proceed && true); cbn [s_w s_sk s_rk]; rewrite X; cbn [negb s_w s_sk s_rk]; unfold makedirs, exists_path; rewrite W, orb_true_r; do 2 eexists; split; reflexivity. }
  rewrite E1. cbn. eauto.
Qed.
Lemma overwrite_refused :
  let w := mkWorld (fun p => if String.eqb p "out/results.hdf5" then Some (FOther 1) else None) (fun p => String.eqb p "out") in
  o_res (run quiets post1 (Some "out") true false "dynesty-static" None None w) = Err FileExistsError /\
  (exists r, o_res (run quiets post1 (Some "out") true false "multinest" None None w) = Ok r).
Proof. cbv zeta. split; [reflexivity|eexists; reflexivity]. Qed.
