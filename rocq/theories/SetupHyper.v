(** C55: the hyper-parameters that the kernels of a setup file need. *)
From Coq Require Import Reals String Ascii Arith Bool Lia List.
From Verif Require Import Py PyFacts PyFloat Params Likelihood Gp Setup SetupSpec SetupProofs SetupThms.
Import ListNotations.
Open Scope string_scope.

Lemma prefix_split p s : String.prefix p s = true -> exists r, s = p ++ r.
Proof.
  revert s. induction p as [|c p IH]; intros s H; [exists s; reflexivity|]. destruct s as [|d s]; [discriminate|]. cbn in H.
  destruct (ascii_dec c d) as [->|]; [|discriminate]. destruct (IH s H) as (r & ->). exists r. reflexivity.
Qed.
(** keys of a dictionary filled by a loop *)
Lemma fold_keys {V} (x : V) l : forall h k, In k (dkeys (fold_left (fun h s => dset h s x) l h)) -> In k l \/ In k (dkeys h).
Proof.
  induction l as [|a l IH]; intros h k H; [now right|]. cbn in H. apply IH in H as [H|H]; [left; now right|]. rewrite dkeys_dset in H. destruct (dmem h a); [now right|].
  apply in_app_or in H as [H|[<-|[]]]; [now right|left; now left].
Qed.
Lemma fold_slots {V} (f : string -> list string) (g : string -> option V) l : forall h k,
  In k (dkeys (fold_left (fun h par => match g par with Some x => fold_left (fun h s => dset h s x) (f par) h | None => h end) l h)) ->
  In k (dkeys h) \/ exists par, In par l /\ In k (f par).
Proof.
  induction l as [|a l IH]; intros h k H; [now left|]. cbn in H. apply IH in H as [H|(par & Hp & Hk)]; [|right; exists par; split; [now right|exact Hk]].
  destruct (g a) as [x|]; [|now left]. apply fold_keys in H as [H|H]; [right; exists a; split; [now left|exact H]|now left].
Qed.
Lemma fold_slots' (f : string -> list string) l : forall h k,
  In k (dkeys (fold_left (fun h par => fold_left (fun h s => dset h s tt) (f par) h) l h)) -> In k (dkeys h) \/ exists par, In par l /\ In k (f par).
Proof. intros h k H. exact (fold_slots f (fun _ => Some tt) l h k H). Qed.

Lemma slots_prefix kind par k : In k (slots kind par) -> exists r, par = k ++ r.
Proof.
  intro H. assert (starts par k = true) as S; [|now apply prefix_split].
  destruct kind; cbn [slots concat] in H; repeat (apply in_app_or in H; destruct H as [H|H]);
    repeat match type of H with context [if ?b then _ else _] => destruct b eqn:? end;
    try (destruct H as [<-|[]]; assumption); destruct H.
Qed.
Lemma cel_prefix par k : In k (celerite_slots par) -> exists r, par = k ++ r.
Proof. unfold celerite_slots. intro H. apply filter_In in H as [_ H]. now apply prefix_split. Qed.

Lemma needed_loop {V} (h : dict V) l : for_each l (fun _ s => do _ <- dget_res h s; Ok tt) tt = Ok tt -> forall s, In s l -> In s (dkeys h).
Proof.
  induction l as [|a l IH]; intros E s H; [destruct H|]. cbn in E. unfold dget_res in E. destruct (dget h a) as [v|] eqn:G; [|discriminate]. cbn in E.
  destruct H as [<-|H]; [eapply dget_key; eauto|now apply IH].
Qed.
Lemma kernel_needs kind hp k : kernel_init kind hp = Ok k -> length (dkeys hp) = length (needed kind) /\ forall p, In p (needed kind) -> exists s, In (p ++ s) (dkeys hp).
Proof.
  unfold kernel_init. destruct (Nat.eqb_spec (length (dkeys hp)) (length (needed kind))) as [L|]; [|discriminate]. intro E. split; [exact L|]. intros p Hp.
  destruct (for_each (needed kind) _ tt) as [[]|] eqn:F; [|discriminate]. pose proof (needed_loop _ _ F p Hp) as I.
  apply fold_slots in I as [[]|(par & H1 & H2)]. apply slots_prefix in H2 as (r & ->). eauto.
Qed.
Lemma gp_names values names hp : map_res (fun s => do x <- dget_res values s; Ok (s, x)) names = Ok hp -> map fst hp = names /\ forall s, In s names -> In s (dkeys (V:=option R) values).
Proof.
  revert hp. induction names as [|a l IH]; intros hp E; [injection E as <-; split; [reflexivity|intros s []]|]. cbn [map_res] in E. unfold dget_res in E at 1.
  destruct (dget values a) as [x|] eqn:G; [|discriminate]. cbn [bind] in E. destruct (map_res _ l) as [ys|] eqn:M; [|discriminate]. injection E as <-.
  destruct (IH ys eq_refl) as [A B]. split; [cbn; now rewrite A|]. intros s [<-|H]; [eapply dget_key; eauto|auto].
Qed.
Lemma update_keys {V} (hp : dict V) : forall d k, In k (dkeys (dupdate d hp)) -> In k (dkeys d) \/ In k (map fst hp).
Proof.
  induction hp as [|[a x] hp IH]; intros d k H; [now left|]. change (dupdate d ((a, x) :: hp)) with (dupdate (dset d a x) hp) in H. apply IH in H as [H|H]; [|right; now right].
  rewrite dkeys_dset in H. destruct (dmem d a); [now left|]. apply in_app_or in H as [H|[<-|[]]]; [now left|right; now left].
Qed.
Lemma values_keys h d k : In k (dkeys (param_values h d)) -> In k (dkeys d).
Proof.
  unfold param_values, dkeys. intro H. apply in_map_iff in H as ([a x] & <- & H). apply in_flat_map in H as ([a' l] & H1 & H2). cbn in H2.
  destruct (nth_error h l); [|destruct H2]. destruct H2 as [Q|[]]. injection Q as <- _. cbn. apply in_map_iff. exists (a', l). auto.
Qed.

Lemma cel_four (h : dict unit) : NoDup (dkeys h) -> incl (dkeys h) ["gp_B"; "gp_C"; "gp_L"; "gp_Prot"] -> length (dkeys h) = 4%nat ->
  forall p, In p ["gp_B"; "gp_C"; "gp_L"; "gp_Prot"] -> In p (dkeys h).
Proof.
  intros ND I L p Hp. apply (NoDup_length_incl ND) in Hp; [exact Hp|cbn; lia|exact I].
Qed.
Lemma cel_needs names : celerite_kernel_init names = Ok tt -> forall p, In p ["gp_B"; "gp_C"; "gp_L"; "gp_Prot"] -> exists s, In (p ++ s) names.
Proof.
  unfold celerite_kernel_init. set (h := fold_left (fun h par => fold_left (fun h s => dset h s tt) (celerite_slots par) h) names ([] : dict unit)). destruct (Nat.eqb_spec (length (dkeys h)) 4) as [L|]; [|discriminate]. intros _ p Hp.
  assert (NoDup (dkeys h)) as ND.
  { unfold h. clear. assert (forall l (d : dict unit), NoDup (dkeys d) -> NoDup (dkeys (fold_left (fun h s => dset h s tt) l d))) as A.
    { intro l. induction l as [|a l IH]; intros d H; [exact H|]. cbn. apply IH. now apply wf_dset. }
    assert (forall l (d : dict unit), NoDup (dkeys d) -> NoDup (dkeys (fold_left (fun h par => fold_left (fun h s => dset h s tt) (celerite_slots par) h) l d))) as B.
    { intro l. induction l as [|a l IH]; intros d H; [exact H|]. cbn [fold_left]. apply IH. now apply A. }
    apply B. constructor. }
  assert (incl (dkeys h) ["gp_B"; "gp_C"; "gp_L"; "gp_Prot"]) as I.
  { intros k Hk. apply fold_slots' in Hk as [[]|(par & _ & Hk)]. unfold celerite_slots in Hk. apply filter_In in Hk. tauto. }
  pose proof (cel_four h ND I L p Hp) as Q. apply fold_slots' in Q as [[]|(par & H1 & H2)]. apply cel_prefix in H2 as (r & ->). eauto.
Qed.

Definition hyper_ok (ty : liketype) : Prop :=
  match ty with
  | RVLike => True
  | GPLike k names => k <> "Celerite" /\ hyper_given k names /\ (NoDup names -> exists pres, In (k, pres) HYPER /\ length names = length pres)
  | CeleriteLike names => hyper_given "Celerite" names
  end.
Lemma kernel_table k kind : kernel_of k = Some kind -> In (k, needed kind) HYPER /\ k <> "Celerite".
Proof.
  unfold kernel_of. destruct (String.eqb_spec k "SqExp") as [->|]; [intro E; injection E as <-; split; [cbn; tauto|discriminate]|].
  destruct (String.eqb_spec k "Per") as [->|]; [intro E; injection E as <-; split; [cbn; tauto|discriminate]|].
  destruct (String.eqb_spec k "QuasiPer") as [->|]; [intro E; injection E as <-; split; [cbn; tauto|discriminate]|]. discriminate.
Qed.
Lemma finish_ok argsort ty h ps l l1 : gp_finish argsort ty h ps l = Ok l1 -> hyper_ok ty.
Proof.
  destruct ty as [|k names|names]; cbn [gp_finish]; intro E; [exact I| |].
  - destruct (kernel_of k) as [kind|] eqn:EK; [|discriminate]. unfold gp_init in E. destruct (map_res _ names) as [hp|] eqn:M; [|discriminate]. cbn [bind] in E.
    destruct (kernel_init kind _) as [ks|] eqn:KI; [|discriminate]. apply gp_names in M as [M _]. apply kernel_needs in KI as [L N]. apply kernel_table in EK as [T NC].
    split; [exact NC|]. split.
    + exists (needed kind). split; [exact T|]. intros p Hp. destruct (N p Hp) as (s & Hs). apply update_keys in Hs as [[]|Hs]. rewrite M in Hs. eauto.
    + intro ND. exists (needed kind). split; [exact T|]. rewrite <- L. rewrite dupdate_empty; [unfold dkeys; now rewrite M|unfold wf_dict, dkeys; now rewrite M].
  - destruct (map_res _ names); [|discriminate]. cbn [bind] in E. destruct (celerite_kernel_init names) as [[]|] eqn:C; [|discriminate].
    exists ["gp_B"; "gp_C"; "gp_L"; "gp_Prot"]. split; [cbn; tauto|]. now apply cel_needs.
Qed.
Lemma make_ok argsort ty h ps vec rows inst vars vecs r : make_like argsort ty h ps vec rows inst vars vecs = Ok r -> hyper_ok ty.
Proof.
  unfold make_like. destruct ty as [|k names|names]; intro E; [exact I| |];
    destruct (rvlike_init _ _ _ _ _ _ _ _ _) as [[[[h1 ps1] vec1] l]|]; try discriminate; cbn [bind] in E;
    destruct (gp_finish _ _ _ _ _) as [l1|] eqn:F; try discriminate; eapply finish_ok; exact F.
Qed.
Lemma loop_hyper argsort P decorr vars ip names : forall b b', for_each names (add_inst argsort P decorr vars ip) b = Ok b' ->
  (forall nm ty l, dget (bl_likes b) nm = Some (ty, l) -> hyper_ok ty) -> forall nm ty l, dget (bl_likes b') nm = Some (ty, l) -> hyper_ok ty.
Proof.
  induction names as [|n names IH]; intros b b' E H; [injection E as <-; exact H|]. cbn [for_each] in E.
  destruct (add_inst argsort P decorr vars ip b n) as [b1|] eqn:A; [|discriminate]. cbn [bind] in E. eapply IH; [exact E|]. clear E IH. intros nm ty l G.
  unfold add_inst in A. destruct (rows_for (P_data P) n) as [|o rows]; [discriminate|].
  destruct (if decorr then _ else _) as [vecs|]; [|discriminate]. cbn [bind] in A. destruct (choose_type P n) as [ty0|]; [|discriminate]. cbn [bind] in A.
  destruct (make_like _ _ _ _ _ _ _ _ _) as [[[[h1 ps1] vec1] l0]|] eqn:M; [|discriminate]. cbn [bind] in A.
  destruct (set_item ip ps1 _) as [ps2|]; [|discriminate]. cbn [bind] in A. destruct (set_item ip ps2 _) as [ps3|]; [|discriminate]. cbn [bind] in A. injection A as <-.
  cbn [bl_likes] in G. destruct (string_dec nm n) as [->|N]; [rewrite dget_dset_same in G; injection G as <- <-; eapply make_ok; exact M|].
  rewrite dget_dset_other in G by exact N. eapply H; exact G.
Qed.
Lemma hyper_required argsort P decorr h r nm ty l : initialize_posterior argsort P decorr h = Ok r -> dget (i_likes r) nm = Some (ty, l) ->
  match ty with
  | RVLike => True
  | GPLike k names => k <> "Celerite" /\ hyper_given k names /\ (NoDup names -> exists pres, In (k, pres) HYPER /\ length names = length pres)
  | CeleriteLike names => hyper_given "Celerite" names
  end.
Proof.
  intros E G. apply init_steps in E as (_ & vars & h0 & d0 & h1 & ip & vec & b & v & _ & _ & _ & _ & F & _ & _ & _ & _ & EL & _). rewrite EL in G.
  change (hyper_ok ty). eapply loop_hyper; [exact F| |exact G]. intros n t l0 Q. discriminate Q.
Qed.
