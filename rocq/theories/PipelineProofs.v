(** The commands of the pipeline follow the state machine of PipelineSpec. *)
From Coq Require Import String Ascii Arith Bool Lia List.
From Verif Require Import Py PyFacts Params Mass Status StatusProofs StatusSpec StatusRound StatusInv StatusThms Pipeline PipelineSpec.
Import ListNotations.
Open Scope string_scope.

Lemma app_cancel q a b : q ++ a = q ++ b -> a = b.
Proof. induction q as [|c q IH]; cbn; [auto|]. intro H. injection H. auto. Qed.

Lemma lstrip_app q x : lstrip q = q -> q <> "" -> lstrip (q ++ x) = q ++ x.
Proof.
  destruct q as [|c r]; [easy|]. cbn. destruct (is_space c) eqn:E; [|auto].
  intros H _. exfalso. assert (L : forall s, String.length (lstrip s) <= String.length s).
  { induction s as [|d s IH]; cbn; [auto|]. destruct (is_space d); cbn; lia. }
  pose proof (L r) as Q. rewrite H in Q. cbn in Q. lia.
Qed.

Lemma path_val q x : path_ok q -> sall plain x = true -> rstrip x = x -> x <> "" -> val_ok (q ++ x).
Proof.
  intros (P & L & N) Px R Nx.
  assert (Pq : sall plain (q ++ x) = true) by (rewrite sall_app, P, Px; reflexivity).
  assert (Rq : rstrip (q ++ x) = q ++ x). { rewrite rstrip_app, R. destruct x; [easy|reflexivity]. }
  assert (S : strip (q ++ x) = q ++ x) by (unfold strip; now rewrite lstrip_app).
  unfold val_ok. rewrite (pieces_join _ Pq). split; [|split; [|split; [|exact Rq]]].
  - revert Pq. apply sall_impl. intros c. unfold plain, notcr. intro H. apply andb_true_iff in H. tauto.
  - constructor; [exact S|constructor].
  - constructor.
Qed.

(** ** status part *)

Definition mc_keys : list string := ["autocorrfile"; "nwalkers"; "nensembles"; "minafactor"; "maxarchange"; "maxgr"; "mintz"].
Record relc (q : string) (c : config) (s : stage) : Prop := mkRelc {
  rc_def : c_def c = [];
  rc_fit : has_section c "fit" = s_fit s;
  rc_fit1 : s_fit s = true -> status c "fit" "run" = Some "True" /\ status c "fit" "postfile" = Some (f_post q) /\ s_post s <> None;
  rc_mc : has_section c "mcmc" = isome (s_mcmc s);
  rc_mc1 : isome (s_mcmc s) = true -> status c "mcmc" "run" = Some "True" /\ status c "mcmc" "postfile" = Some (f_post q) /\
           status c "mcmc" "chainfile" = Some (f_chain q) /\ s_post s <> None /\ (forall k, In k mc_keys -> status c "mcmc" k <> None);
  rc_ns : has_section c "ns" = isome (s_ns s);
  rc_ns1 : isome (s_ns s) = true -> status c "ns" "run" = Some "True" /\ status c "ns" "postfile" = Some (f_post_ns q) /\
           status c "ns" "chainfile" = Some (f_chain_ns q);
  rc_der : has_section c "derive" = isome (s_derived s);
  rc_der1 : isome (s_derived s) = true -> status c "derive" "run" = Some "True" /\ status c "derive" "chainfile" = Some (f_dchain q);
  rc_ic : has_section c "ic_compare" = s_ic s;
  rc_ic1 : s_ic s = true -> status c "ic_compare" "ic" <> None;
  rc_plot : has_section c "plot" = s_plot s }.

(** ** file part *)
Record relf (q : string) (f : dict content) (s : stage) : Prop := mkRelf {
  rf_post : dget f (f_post q) = option_map CPost (s_post s);
  rf_chain : dget f (f_chain q) = option_map CChain (s_mcmc s);
  rf_post_ns : dget f (f_post_ns q) = option_map (fun pn => CPost (fst pn)) (s_ns s);
  rf_chain_ns : dget f (f_chain_ns q) = option_map (fun pn => CChain (snd pn)) (s_ns s);
  rf_dchain : dget f (f_dchain q) = option_map (fun nm => CDerived (fst nm) (snd nm)) (s_derived s) }.

Definition rel (q : string) (w : world) (s : stage) (c : config) : Prop :=
  load_status (w_status w) = Ok c /\ relc q c s /\ relf q (w_files w) s.

Lemma rel_start q : rel q empty_world start no_config.
Proof. split; [reflexivity|]. split; constructor; cbn; auto; discriminate. Qed.

Lemma save_spec w sec vars c : load_status (w_status w) = Ok c -> save_ok (sec, vars) ->
  exists w' c', save sec vars w = (w', Ok tt) /\ w_files w' = w_files w /\ load_status (w_status w') = Ok c' /\ c_def c' = c_def c /\
    (forall s, has_section c' s = String.eqb sec s || has_section c s) /\
    (forall s k, status c' s k = if String.eqb sec s then match last_in vars k with Some v => Some v | None => status c s k end else status c s k).
Proof.
  intros L O. destruct (save_one _ _ _ _ L O) as (c' & E & L' & D & K & S).
  exists (mkW (Some (write c')) (w_files w)), c'. unfold save. rewrite E. repeat split; auto.
  intro s. unfold has_section in *. apply Bool.eq_iff_eq_true. rewrite orb_true_iff, !dmem_in, K, String.eqb_eq.
  destruct (dmem (c_sec c) sec) eqn:M.
  - split; [auto|]. intros [<-|H]; [now apply dmem_in|auto].
  - rewrite in_app_iff. cbn. intuition.
Qed.

Lemma get_spec c sec k : c_def c = [] -> sec <> "DEFAULT" ->
  cfg_get c sec k = match status c sec k with Some v => Ok v | None => Err PlainException end.
Proof.
  intros D N. unfold cfg_get, sec_get, status. apply String.eqb_neq in N. rewrite N.
  destruct (dget (c_sec c) sec) as [d|]; [|reflexivity]. destruct (dget d (lower k)); [reflexivity|]. now rewrite D.
Qed.
Lemma get_none c sec k : sec <> "DEFAULT" -> has_section c sec = false -> cfg_get c sec k = Err PlainException.
Proof.
  intros N H. unfold cfg_get, sec_get. apply String.eqb_neq in N. rewrite N. unfold has_section, dmem in H.
  now destruct (dget (c_sec c) sec).
Qed.

Lemma has_run_rel c sec b : c_def c = [] -> sec <> "DEFAULT" -> has_section c sec = b -> (b = true -> status c sec "run" = Some "True") ->
  has_run c sec = Ok b.
Proof.
  intros D N H S. unfold has_run. rewrite H. destruct b; [|reflexivity].
  unfold getboolean. rewrite get_spec by auto. now rewrite S.
Qed.
Lemma pick_rel q c s sampler : relc q c s -> pick_sampler sampler c = pick sampler s.
Proof.
  intros R. unfold pick_sampler.
  rewrite (has_run_rel c "mcmc" (isome (s_mcmc s))), (has_run_rel c "ns" (isome (s_ns s))); try easy; try apply R.
  unfold pick, choose. cbn [bind]. destruct (isome (s_mcmc s)), (isome (s_ns s)), (String.eqb sampler "auto"), (String.eqb sampler "mcmc"), (String.eqb sampler "ns"); reflexivity.
Qed.
Lemma getb_fit q c s : relc q c s -> getboolean c "fit" "run" = if s_fit s then Ok true else Err PlainException.
Proof.
  intro R. unfold getboolean. destruct (s_fit s) eqn:F.
  - rewrite get_spec by (easy || apply R). destruct (rc_fit1 _ _ _ R F) as (-> & _). reflexivity.
  - rewrite get_none; [reflexivity|easy|]. rewrite (rc_fit _ _ _ R). exact F.
Qed.

(** what a command leaves alone *)
Definition files_of (q : string) : list string := [f_post q; f_chain q; f_post_ns q; f_chain_ns q; f_dchain q].
Lemma relf_other q f s p c : relf q f s -> ~ In p (files_of q) -> relf q (dset f p c) s.
Proof.
  intros [A B C D E] N. cbn in N. constructor; rewrite dget_dset_other by (intro X; apply N; subst p; tauto); assumption.
Qed.
(** saves in sections the machine does not know *)
Lemma relc_other q c c' s sec vars : relc q c s -> c_def c' = c_def c ->
  (forall s, has_section c' s = String.eqb sec s || has_section c s) ->
  (forall s k, status c' s k = if String.eqb sec s then match last_in vars k with Some v => Some v | None => status c s k end else status c s k) ->
  sec = "table" -> relc q c' s.
Proof.
  intros R D H S ->. destruct R as [r0 r1 r2 r3 r4 r5 r6 r7 r8 r9 r10 r11].
  constructor; rewrite ?H, ?S; cbn [String.eqb Ascii.eqb Bool.eqb orb]; rewrite ?S; cbn [String.eqb Ascii.eqb Bool.eqb]; auto; [congruence|].
  intro X. destruct (r4 X) as (a1 & a2 & a3 & a4 & a5). repeat split; auto. intros k K. rewrite S. cbn. now apply a5.
Qed.

(** ** the arguments given to save_status can be stored *)
Ltac okv := match goal with |- val_ok _ => solve [repeat split; repeat constructor; cbn; auto; discriminate] end.
Lemma key_ok_c k : (negb (String.eqb k "") && String.eqb (strip k) k && String.eqb (lower k) k && sall plain k && sall (fun c => negb (delim c)) k && negb (commented k))%bool = true -> key_ok k.
Proof.
  intro H. repeat apply andb_true_iff in H as [H ?]. unfold key_ok, stripped.
  apply negb_true_iff in H. apply String.eqb_neq in H.
  repeat match goal with X : String.eqb _ _ = true |- _ => apply String.eqb_eq in X end.
  match goal with X : negb _ = true |- _ => apply negb_true_iff in X end. tauto.
Qed.
Definition pair_ok (kv : string * string) : Prop := key_ok (lower (fst kv)) /\ val_ok (snd kv) /\ String.prefix "[" (fst kv) = false.
Lemma pair_okc k v : key_ok (lower k) -> val_ok v -> String.prefix "[" k = false -> pair_ok (k, v).
Proof. unfold pair_ok; auto. Qed.
Lemma val_true : val_ok "True".
Proof. repeat split; repeat constructor. Qed.
Ltac pok P := apply pair_okc; [apply key_ok_c; reflexivity| first [exact val_true | apply (path_val _ _ P); [reflexivity|reflexivity|discriminate] | auto] |reflexivity].
Lemma name_okc n : (negb (String.eqb n "") && sall plain n)%bool = true -> name_ok n.
Proof. intro H. apply andb_true_iff in H as [H ?]. apply negb_true_iff, String.eqb_neq in H. now split. Qed.
Lemma save_okc sec vars : name_ok sec -> sec <> "DEFAULT" -> Forall pair_ok vars -> save_ok (sec, vars).
Proof. intros. repeat split; auto; apply H. Qed.

Lemma ok_fit q : path_ok q -> save_ok ("fit", [("run", "True"); ("postfile", f_post q)]).
Proof. intro P. apply save_okc; [now apply name_okc|easy|]. repeat (constructor; [pok P|]). constructor. Qed.
Lemma ok_mcmc q x : path_ok q -> (forall s, val_ok (x s)) -> save_ok ("mcmc", mcmc_vars q x).
Proof. intros P X. apply save_okc; [now apply name_okc|easy|]. repeat (constructor; [pok P|]). constructor. Qed.
Lemma ok_derive q : path_ok q -> save_ok ("derive", [("run", "True"); ("quantfile", f_dquant q); ("chainfile", f_dchain q)]).
Proof. intro P. apply save_okc; [now apply name_okc|easy|]. repeat (constructor; [pok P|]). constructor. Qed.
Lemma ok_ic t : val_ok t -> save_ok ("ic_compare", [("ic", t)]).
Proof. intro P. apply save_okc; [now apply name_okc|easy|]. repeat (constructor; [pok P|]). constructor. Qed.
Lemma ok_table q t : path_ok q -> save_ok ("table", [(ttext t ++ "_tex", q ++ "_" ++ ttext t ++ ".tex")]).
Proof. intro P. apply save_okc; [now apply name_okc|easy|]. constructor; [|constructor]. destruct t; pok P. Qed.
Lemma ok_plot q t : path_ok q -> save_ok ("plot", [(ptext t ++ "_plot", pfile q t)]).
Proof. intro P. apply save_okc; [now apply name_okc|easy|]. constructor; [|constructor]. unfold pfile. destruct t; pok P. Qed.

Lemma forall_dset_pair (d : dict string) k v (Q : string * string -> Prop) : Forall Q d -> Q (k, v) -> Forall Q (dset d k v).
Proof.
  intros F H. induction F as [|[k' v'] r A F IH]; cbn; [auto|]. destruct (String.eqb_spec k k') as [->|]; auto.
Qed.
Lemma last_in_dset d k v k' : lower k <> lower k' -> last_in (dset d k v) k' = last_in d k'.
Proof.
  intro N. unfold last_in. generalize (@None string). induction d as [|[a b] r IH]; intro o; cbn.
  - apply String.eqb_neq in N. now rewrite N.
  - destruct (String.eqb_spec k a) as [->|]; cbn; [|apply IH]. apply String.eqb_neq in N. now rewrite N.
Qed.
Lemma ns_last q kw : kw_ok kw -> forall k v, In k reserved ->
  last_in [("run", "True"); ("postfile", f_post_ns q); ("chainfile", f_chain_ns q); ("ns_outdir", f_nsdir q); ("summaryfile", f_summary_ns q)] k = Some v ->
  last_in (ns_vars q kw) k = Some v.
Proof.
  unfold ns_vars. generalize [("run", "True"); ("postfile", f_post_ns q); ("chainfile", f_chain_ns q); ("ns_outdir", f_nsdir q); ("summaryfile", f_summary_ns q)].
  unfold dupdate. intros d F. revert d. induction F as [|[a b] r (_ & _ & _ & N) F IH]; intros d k v I H; cbn; [exact H|].
  apply IH; [exact I|]. cbn in N. rewrite last_in_dset; [exact H|]. intro E. apply N. rewrite E.
  cbn in I. repeat (destruct I as [<-|I]; [cbn; tauto|]). destruct I.
Qed.
Lemma ok_ns q kw : path_ok q -> kw_ok kw -> save_ok ("ns", ns_vars q kw).
Proof.
  intros P K. apply save_okc; [now apply name_okc|easy|]. unfold ns_vars, dupdate.
  assert (B : Forall pair_ok [("run", "True"); ("postfile", f_post_ns q); ("chainfile", f_chain_ns q); ("ns_outdir", f_nsdir q); ("summaryfile", f_summary_ns q)]).
  { repeat (constructor; [pok P|]). constructor. }
  revert B. generalize [("run", "True"); ("postfile", f_post_ns q); ("chainfile", f_chain_ns q); ("ns_outdir", f_nsdir q); ("summaryfile", f_summary_ns q)].
  induction K as [|[a b] r (K1 & K2 & K3 & _) F IH]; intros d B; cbn; [exact B|]. apply IH. apply forall_dset_pair; [exact B|]. repeat split; auto; apply K1 || apply K2.
Qed.
