(** A further report made from the same posterior and chain has the same columns and labels (C81). *)
From Coq Require Import ZArith Reals String Ascii Arith Bool Lia List.
From Verif Require Import Py PyFacts PyFloat Params Basis Kepler Stats PostProc ParTable Derive RepChains TexLabels BasisProofs PickleProofs SetupHyper.
Import ListNotations.
Open Scope R_scope.
Open Scope string_scope.

Lemma update_keys_iff {V} (d2 : dict V) : forall d k, In k (dkeys (dupdate d d2)) <-> In k (dkeys d) \/ In k (dkeys d2).
Proof.
  unfold dupdate. induction d2 as [|[a x] d2 IH]; intros d k; cbn [fold_left]; [cbn; tauto|]. rewrite IH, in_dkeys_dset. cbn. intuition congruence.
Qed.
Lemma sets_keys {A} (f : heap * dict nat -> A -> heap * dict nat) (nm : A -> string) l : (forall hd a, exists v, snd (f hd a) = dset (snd hd) (nm a) v) ->
  forall hd, (forall k, In k (dkeys (snd (fold_left f l hd))) <-> In k (dkeys (snd hd)) \/ In k (map nm l)) /\ (NoDup (dkeys (snd hd)) -> NoDup (dkeys (snd (fold_left f l hd)))).
Proof.
  intro F. induction l as [|a l IH]; intro hd; cbn [fold_left map]; [split; [cbn; tauto|auto]|]. destruct (F hd a) as [v E]. destruct (IH (f hd a)) as [A1 A2]. split.
  - intro k. rewrite A1, E, in_dkeys_dset. cbn. intuition congruence.
  - intro N. apply A2. rewrite E. now apply wf_dset.
Qed.
Lemma copy_keys h ps : let q := snd (copy_params h ps) in
  (forall k, In k (dkeys (ps_items q)) <-> In k (dkeys (ps_items ps)) \/ In k (default_keys (ps_num ps) (split (b_name (ps_basis ps))))) /\ NoDup (dkeys (ps_items q)) /\
  ps_num q = ps_num ps /\ ps_letters q = ps_letters ps.
Proof.
  unfold copy_params, parameters_init. cbn [b_name basis_init]. set (l := default_keys _ _).
  destruct (sets_keys (fun hd k => set_new hd k parameter_default) (fun k => k) l (fun hd a => ex_intro _ _ eq_refl) (h, [])) as [K N].
  destruct (fold_left _ _ _) as [h1 d]. cbn [fst snd ps_items ps_num ps_letters] in *. split; [|split; [|auto]].
  - intro k. rewrite update_keys_iff, K, map_id. cbn. tauto.
  - apply wf_dupdate, N. constructor.
Qed.

(** the loop over planets *)
Lemma planets_keys {S} (body : S -> nat -> res S) (dict_of : S -> dict nat) (ns : list string) :
  (forall s n s', body s n = Ok s' -> (forall k, In k (dkeys (dict_of s')) <-> In k (dkeys (dict_of s)) \/ In k (map (fun p => key p n) ns)) /\ (NoDup (dkeys (dict_of s)) -> NoDup (dkeys (dict_of s')))) ->
  forall m a s s', for_each (seq a m) body s = Ok s' ->
  (forall k, In k (dkeys (dict_of s')) <-> In k (dkeys (dict_of s)) \/ exists p n, In p ns /\ (a <= n < a + m)%nat /\ k = key p n) /\ (NoDup (dkeys (dict_of s)) -> NoDup (dkeys (dict_of s'))).
Proof.
  intro B. induction m as [|m IH]; intros a s s' E; cbn [seq for_each] in E.
  - injection E as <-. split; [|auto]. intro k. split; [auto|]. intros [H|(p & n & _ & H & _)]; [auto|lia].
  - destruct (body s a) as [s1|] eqn:E1; [|discriminate]. cbn [bind] in E. destruct (B _ _ _ E1) as [K1 N1]. destruct (IH _ _ _ E) as [K2 N2]. split; [|auto].
    intro k. rewrite K2, K1, in_map_iff. split.
    + intros [[H|(p & <- & H)]|(p & n & H & R & ->)]; [auto|right; exists p, a; repeat split; auto; lia|right; exists p, n; repeat split; auto; lia].
    + intros [H|(p & n & H & R & ->)]; [auto|]. destruct (Nat.eq_dec n a) as [->|N]; [left; right; eauto|right; exists p, n; repeat split; auto; lia].
Qed.

Lemma to_synth_keys h self ps nv kn h' sp : to_synth h self ps nv kn = Ok (h', sp) ->
  (forall k, In k (dkeys (ps_items sp)) <-> (In k (dkeys (ps_items ps)) \/ In k (default_keys (ps_num ps) (split (b_name (ps_basis ps))))) \/ exists p n, In p ["per"; "tp"; "e"; "w"; "k"] /\ (1 <= n <= b_num self)%nat /\ k = key p n) /\
  NoDup (dkeys (ps_items sp)) /\ ps_num sp = ps_num ps /\ ps_letters sp = ps_letters ps /\ ps_basis sp = basis_init "per tp e w k" (b_num self).
Proof.
  unfold to_synth. destruct (copy_keys h ps) as (K & N & M & L). destruct (copy_params h ps) as [h1 q]. cbn [snd] in *. destruct (for_each _ _ _) as [hd|] eqn:E; [|discriminate]. cbn [bind]. intro H. injection H as _ <-.
  cbn [ps_items ps_num ps_letters ps_basis]. apply (planets_keys _ snd ["per"; "tp"; "e"; "w"; "k"]) in E.
  - cbn [snd] in E. destruct E as [K2 N2]. repeat split; auto; try apply N2; auto.
    + intro H. apply K2 in H. rewrite K in H. destruct H as [H|(p & n & A & B & C)]; [auto|right; exists p, n; repeat split; auto; lia].
    + intro H. apply K2. rewrite K. destruct H as [H|(p & n & A & B & C)]; [auto|right; exists p, n; repeat split; auto; lia].
  - intros s n s' H. destruct (synth_of _ _) as [[[[[per tp] e] w] kk]|]; [|discriminate]. cbn [bind] in H. injection H as <-.
    set (f := setpar_to _ _ _ _). assert (forall hd (a : string * R), exists v, snd (f hd a) = dset (snd hd) (key (fst a) n) v) as F.
    { intros hd0 a. unfold f, setpar_to. destruct (get_param _ _ _); eexists; reflexivity. }
    destruct (sets_keys f (fun a => key (fst a) n) [("per", per); ("tp", tp); ("e", e); ("w", w); ("k", kk)] F s) as [A B]. split; [exact A|exact B].
Qed.

Lemma print_keys h self ps h' self' q : from_synth h self ps print_basis true = Ok (h', self', Some q) ->
  (forall k, In k (dkeys (ps_items q)) <-> (In k (dkeys (ps_items ps)) \/ In k (default_keys (ps_num ps) (split (b_name (ps_basis ps))))) \/ exists p n, In p ["tc"; "w"] /\ (1 <= n <= b_num self)%nat /\ k = key p n) /\
  NoDup (dkeys (ps_items q)) /\ ps_num q = ps_num ps /\ ps_letters q = ps_letters ps /\ ps_basis q = basis_init print_basis (b_num self) /\ ps_pp q = split print_basis.
Proof.
  unfold from_synth. change (negb (str_in print_basis BASIS_NAMES)) with false. cbn iota. destruct (copy_keys h ps) as (K & N & M & L). destruct (copy_params h ps) as [h1 q0]. cbn [snd] in *.
  destruct (for_each _ _ _) as [hd|] eqn:E; [|discriminate]. cbn [bind]. intro H. injection H as _ _ <-.
  cbn [ps_items ps_num ps_letters ps_basis ps_pp]. apply (planets_keys _ snd ["tc"; "w"]) in E.
  - cbn [snd] in E. destruct E as [K2 N2]. repeat split; auto; try apply N2; auto.
    + intro H. apply K2 in H. rewrite K in H. destruct H as [H|(p & n & A & B & C)]; [auto|right; exists p, n; repeat split; auto; lia].
    + intro H. apply K2. rewrite K. destruct H as [H|(p & n & A & B & C)]; [auto|right; exists p, n; repeat split; auto; lia].
  - intros s n s' H. unfold from_synth_of in H. change (String.eqb print_basis "per tc e w k") with false in H. change (String.eqb print_basis "per tc tp e w k") with true in H. cbn iota in H.
    destruct (getpar _ _ n "per") as [per|]; [|discriminate]. cbn [bind] in H. destruct (getpar _ _ n "e") as [e|]; [|discriminate]. cbn [bind] in H.
    destruct (getpar _ _ n "w") as [w|]; [|discriminate]. cbn [bind] in H. destruct (getpar _ _ n "tp") as [tp|]; [|discriminate]. cbn [bind] in H. injection H as <-.
    set (f := setpar_from _ _ _). assert (forall hd (a : string * R), exists v, snd (f hd a) = dset (snd hd) (key (fst a) n) v) as F.
    { intros hd0 a. unfold f, setpar_from. destruct (get_param _ _ _); eexists; reflexivity. }
    destruct (sets_keys f (fun a => key (fst a) n) [("tc", timeperi_to_timetrans tp per e w false); ("w", w)] F s) as [A B]. split; [exact A|exact B].
Qed.

(** the parameters of a report, and of a further one *)
Lemma report_keys h ps h' q : report_params h ps = Ok (h', Some q) ->
  (forall k, In k (dkeys (ps_items ps)) -> In k (dkeys (ps_items q))) /\
  (forall p n, In p (split print_basis) -> (1 <= n <= b_num (ps_basis ps))%nat -> In (key p n) (dkeys (ps_items q))) /\
  (forall k, In k (dkeys (ps_items q)) -> In k (dkeys (ps_items ps)) \/ In k (default_keys (ps_num ps) (split (b_name (ps_basis ps)))) \/ In k (default_keys (ps_num ps) (split "per tp e w k")) \/ exists p n, In p (split print_basis) /\ (1 <= n <= b_num (ps_basis ps))%nat /\ k = key p n) /\
  NoDup (dkeys (ps_items q)) /\ ps_num q = ps_num ps /\ ps_letters q = ps_letters ps /\ ps_basis q = basis_init print_basis (b_num (ps_basis ps)) /\ ps_pp q = split print_basis.
Proof.
  unfold report_params. intro E. destruct (to_synth _ _ _ _ _) as [[h1 sp]|] eqn:E1; [|discriminate]. cbn [bind] in E. destruct (from_synth _ _ _ _ _) as [[[h2 b2] q2]|] eqn:E2; [|discriminate]. cbn [bind] in E. injection E as <- ->.
  destruct (to_synth_keys _ _ _ _ _ _ _ E1) as (K1 & _ & M1 & L1 & B1). destruct (print_keys _ _ _ _ _ _ E2) as (K2 & N2 & M2 & L2 & B2 & P2). rewrite B1 in K2, B2. cbn [b_num b_name basis_init] in K2, B2.
  split; [|split; [|split; [|repeat split; auto; congruence]]].
  { intros k H. apply K2. left. left. apply K1. left. left. exact H. }
  { intros p n H R. apply K2. cbn in H. destruct H as [<-|[<-|[<-|[<-|[<-|[<-|[]]]]]]].
    2:{ right. exists "tc", n. split; [now left|]. split; [exact R|reflexivity]. }
    all: left; left; apply K1; right; match goal with |- context [key ?p _] => exists p, n end; (split; [cbn; tauto|]); (split; [exact R|reflexivity]). }
  intros k H. apply K2 in H. rewrite K1 in H. rewrite M1 in H. destruct H as [[[[H|H]|(p & n & H & R & ->)]|H]|(p & n & H & R & ->)]; auto.
  - right. right. right. exists p, n. repeat split; try lia. cbn in H |- *. intuition.
  - right. right. right. exists p, n. repeat split; try lia. cbn in H |- *. intuition.
Qed.

Lemma again_keys h ps h' q h2 q2 : b_num (ps_basis ps) = ps_num ps -> report_params h ps = Ok (h', Some q) -> report_params h' q = Ok (h2, Some q2) ->
  (forall k, In k (dkeys (ps_items q2)) <-> In k (dkeys (ps_items q))) /\ NoDup (dkeys (ps_items q2)) /\ NoDup (dkeys (ps_items q)) /\ ps_letters q2 = ps_letters q /\ ps_pp q2 = ps_pp q /\ ps_basis q2 = ps_basis q.
Proof.
  intros BN E1 E2. destruct (report_keys _ _ _ _ E1) as (_ & P1 & _ & N1 & M1 & L1 & B1 & PP1). destruct (report_keys _ _ _ _ E2) as (I2 & _ & F2 & N2 & M2 & L2 & B2 & PP2).
  rewrite B1 in F2, B2. cbn [b_num b_name basis_init] in F2, B2. split; [|repeat split; auto; congruence]. intro k. split; [|auto].
  intro H. apply F2 in H as [H|[H|[H|(p & n & H & R & ->)]]]; auto.
  - apply default_keys_in in H as (n & p & R & H & ->). apply P1; [exact H|]. rewrite BN. congruence || (rewrite M1 in R; exact R).
  - apply default_keys_in in H as (n & p & R & H & ->). apply P1; [|rewrite BN; rewrite M1 in R; exact R]. cbn in H |- *. intuition.
Qed.

(** the columns *)
Lemma missing_dmem h d t k t' : missing_step h d t k = Ok t' -> dmem (t_cols t') k = true /\ (forall k', dmem (t_cols t) k' = true -> dmem (t_cols t') k' = true).
Proof.
  unfold missing_step. destruct (dmem (t_cols t) k) eqn:M; [intro H; injection H as <-; auto|]. destruct (get_param h d k) as [p|]; [|discriminate]. destruct (p_value p) as [x|]; [|discriminate].
  intro H. injection H as <-. cbn [t_cols]. split; [unfold dmem; now rewrite dget_dset_same|]. intros k0 H. rewrite dmem_dset, H. apply orb_true_r.
Qed.
Lemma filled h d t t' : fill_missing h d t = Ok t' -> forall k, In k (dkeys d) -> dmem (t_cols t') k = true.
Proof.
  unfold fill_missing. generalize (dkeys d). intro l. revert t. enough (forall t, for_each l (missing_step h d) t = Ok t' -> (forall k, In k l -> dmem (t_cols t') k = true) /\ (forall k, dmem (t_cols t) k = true -> dmem (t_cols t') k = true)) as Q by (intros t E; now apply Q in E).
  induction l as [|k l IH]; intros t E; cbn [for_each] in E; [injection E as <-; split; [easy|auto]|]. destruct (missing_step h d t k) as [t1|] eqn:E1; [|discriminate]. cbn [bind] in E.
  apply missing_dmem in E1 as [A B]. destruct (IH _ E) as [C D]. split; [intros k' [<-|H]; auto|auto].
Qed.
Lemma fill_none h d t : (forall k, In k (dkeys d) -> dmem (t_cols t) k = true) -> fill_missing h d t = Ok t.
Proof.
  unfold fill_missing. generalize (dkeys d). intros l. induction l as [|k l IH]; intro H; [reflexivity|]. cbn [for_each]. unfold missing_step at 1. rewrite (H k) by now left. cbn [bind]. apply IH. intros; apply H; now right.
Qed.

(** the labels *)
Lemma tex_labels_get pp letters l : NoDup l -> forall d, tex_labels pp letters l = Ok d -> (forall k, In k l -> exists t, tex_label pp letters k None = Ok t /\ dget d k = Some t) /\ (forall k, ~ In k l -> dget d k = None).
Proof.
  unfold tex_labels. set (f := fun _ _ => _). intro ND. enough (forall d0 d, (forall k, In k l -> dget d0 k = None) -> for_each l f d0 = Ok d ->
    (forall k, In k l -> exists t, tex_label pp letters k None = Ok t /\ dget d k = Some t) /\ (forall k, ~ In k l -> dget d k = dget d0 k)) as Q.
  { intros d E. destruct (Q [] d (fun k _ => eq_refl) E). auto. }
  induction l as [|k l IH]; intros d0 d Z E; cbn [for_each] in E; [injection E as <-; split; [easy|auto]|]. inversion ND as [|? ? NI ND']; subst.
  unfold f in E at 1. rewrite (Z k) in E by now left. destruct (tex_label pp letters k None) as [t|] eqn:T; [|discriminate]. cbn [bind] in E. destruct (IH ND' (dset d0 k t) d) as [A B]; [|exact E|].
  - intros k' H. rewrite dget_dset_other by (intros ->; contradiction). apply Z. now right.
  - split.
    + intros k' [<-|H]; [|auto]. exists t. split; [exact T|]. rewrite B by exact NI. apply dget_dset_same.
    + intros k' H. rewrite B by (cbn in H; tauto). apply dget_dset_other. intros ->. apply H. now left.
Qed.

Theorem report_again h ps fb chains h1 q cols quants t h2 q2 cols2 quants2 l l2 : b_num (ps_basis ps) = ps_num ps ->
  report_init h ps fb chains = Ok (h1, q, cols, quants) -> fill_missing h1 (ps_items q) chains = Ok t -> report_init h1 q fb t = Ok (h2, q2, cols2, quants2) ->
  tex_labels (ps_pp q) (ps_letters q) (dkeys (ps_items q)) = Ok l -> tex_labels (ps_pp q2) (ps_letters q2) (dkeys (ps_items q2)) = Ok l2 ->
  cols2 = cols /\ quants2 = quants /\ forall k, dget l2 k = dget l k.
Proof.
  intros BN E1 F E2 T1 T2. unfold report_init in E1, E2. destruct (report_params h ps) as [[h1' q1]|] eqn:P1; [|discriminate]. cbn [bind] in E1. destruct q1 as [q1|]; [|discriminate].
  destruct (report_chains h1' q1 fb chains) as [c1|] eqn:C1; [|discriminate]. cbn [bind] in E1. injection E1 as -> -> -> <-.
  destruct (report_params h1 q) as [[h2' q2']|] eqn:P2; [|discriminate]. cbn [bind] in E2. destruct q2' as [q2'|]; [|discriminate].
  destruct (report_chains h2' q2' fb t) as [c2|] eqn:C2; [|discriminate]. cbn [bind] in E2. injection E2 as -> -> -> <-.
  destruct (again_keys _ _ _ _ _ _ BN P1 P2) as (K & N2 & N1 & L & PP & B). assert (cols2 = cols) as ->.
  { unfold report_chains in C1, C2. rewrite F in C1. cbn [bind] in C1. rewrite (fill_none h2 (ps_items q2) t) in C2; [|intros k H; apply (filled _ _ _ _ F); now apply K].
    cbn [bind] in C2. rewrite B in C2. congruence. }
  split; [reflexivity|]. split; [reflexivity|]. intro k. destruct (tex_labels_get _ _ _ N1 _ T1) as [A1 A2]. destruct (tex_labels_get _ _ _ N2 _ T2) as [A3 A4]. rewrite PP, L in A3.
  destruct (in_dec string_dec k (dkeys (ps_items q))) as [I|I].
  - destruct (A1 k I) as (x & X1 & ->). destruct (A3 k (proj2 (K k) I)) as (y & Y1 & ->). congruence.
  - rewrite (A2 k I). apply A4. now rewrite K.
Qed.

(** ** a further report can be made *)
Definition valued (hd : heap * dict nat) (k : string) : Prop := exists p x, get_param (fst hd) (snd hd) k = Some p /\ p_value p = Some x.
Lemma valued_getpar h d n p : valued (h, d) (key p n) -> exists x, getpar h d n p = Ok x.
Proof. intros (q & x & G & V). cbn [fst snd] in G. unfold getpar. rewrite G, V. eauto. Qed.
Lemma getpar_valued h d n p x : getpar h d n p = Ok x -> valued (h, d) (key p n).
Proof. unfold getpar, valued. cbn [fst snd]. destruct (get_param h d (key p n)) as [q|]; [|discriminate]. destruct (p_value q) as [v|] eqn:V; [|discriminate]. eauto. Qed.
Lemma set_new_valued hd k p : (exists x, p_value p = Some x) -> valued (set_new hd k p) k /\ forall k', valued hd k' -> valued (set_new hd k p) k'.
Proof.
  intros [x V]. unfold valued, set_new, get_param. cbn [fst snd]. assert (match dget (dset (snd hd) k (length (fst hd))) k with Some l => nth_error (fst hd ++ [p])%list l | None => None end = Some p) as Q.
  { rewrite dget_dset_same. rewrite nth_error_app2, Nat.sub_diag by lia. reflexivity. }
  split; [eauto|]. intros k' (p' & x' & G & V'). destruct (string_dec k' k) as [->|N]; [eauto|]. rewrite dget_dset_other by auto. destruct (dget (snd hd) k') as [l|]; [|discriminate].
  exists p', x'. split; [|exact V']. rewrite nth_error_app1; [exact G|]. apply nth_error_Some. congruence.
Qed.
Lemma sets_valued {A} (f : heap * dict nat -> A -> heap * dict nat) (nm : A -> string) l : (forall hd a, exists p, f hd a = set_new hd (nm a) p /\ exists x, p_value p = Some x) ->
  forall hd k, In k (map nm l) \/ valued hd k -> valued (fold_left f l hd) k.
Proof.
  intro F. induction l as [|a l IH]; intros hd k H; cbn [fold_left map] in *; [destruct H as [[]|H]; exact H|]. destruct (F hd a) as (p & E & V). destruct (set_new_valued hd (nm a) p V) as [A1 A2].
  apply IH. rewrite E. destruct H as [[<-|H]|H]; auto.
Qed.
Lemma copy_valued h ps k : NoDup (dkeys (ps_items ps)) -> valued (h, ps_items ps) k -> let '(h1, q) := copy_params h ps in valued (h1, ps_items q) k.
Proof.
  intros ND (p & x & G & V). unfold copy_params, parameters_init. cbn [b_name basis_init]. set (l := default_keys _ _).
  assert (forall l hd, exists t, fst (fold_left (fun hd k => set_new hd k parameter_default) l hd) = (fst hd ++ t)%list) as HP.
  { clear. induction l as [|a l IH]; intro hd; cbn [fold_left]; [exists []; now rewrite app_nil_r|]. destruct (IH (set_new hd a parameter_default)) as [t ->]. unfold set_new. cbn [fst]. rewrite <- app_assoc. eauto. }
  specialize (HP l (h, [])). destruct (fold_left _ _ _) as [h1 d]. cbn [fst] in HP. destruct HP as [t ->]. cbn [fst snd] in G. unfold get_param in G. destruct (dget (ps_items ps) k) as [a|] eqn:E; [|discriminate].
  exists p, x. split; [|exact V]. cbn [fst snd ps_items]. unfold get_param. rewrite (dget_dupdate_in _ _ _ _ ND E). rewrite nth_error_app1; [exact G|]. apply nth_error_Some. congruence.
Qed.
Lemma planets_valued {A} (body : heap * dict nat -> A -> res (heap * dict nat)) (new : A -> string -> Prop) :
  (forall s n s', body s n = Ok s' -> forall k, new n k \/ valued s k -> valued s' k) ->
  forall l s s', for_each l body s = Ok s' -> forall k, (exists n, In n l /\ new n k) \/ valued s k -> valued s' k.
Proof.
  intro B. induction l as [|n l IH]; intros s s' E k H; cbn [for_each] in E; [injection E as <-; destruct H as [(? & [] & _)|H]; exact H|]. destruct (body s n) as [s1|] eqn:E1; [|discriminate]. cbn [bind] in E.
  apply (IH _ _ E). destruct H as [(m & [<-|Hm] & H)|H]; [right; eapply B; eauto|left; eauto|right; eapply B; eauto].
Qed.
Lemma planets_total {A S} (body : S -> A -> res S) : forall l s, (forall s n, In n l -> exists s', body s n = Ok s') -> exists s', for_each l body s = Ok s'.
Proof.
  induction l as [|n l IH]; intros s H; [eexists; reflexivity|]. cbn [for_each]. destruct (H s n) as [s1 ->]; [now left|]. cbn [bind]. apply IH. intros; apply H; now right.
Qed.

Lemma to_synth_valued h self ps nv kn h' sp : NoDup (dkeys (ps_items ps)) -> to_synth h self ps nv kn = Ok (h', sp) ->
  (forall k, valued (h, ps_items ps) k -> valued (h', ps_items sp) k) /\ (forall p n, In p ["per"; "tp"; "e"; "w"; "k"] -> (1 <= n <= b_num self)%nat -> valued (h', ps_items sp) (key p n)).
Proof.
  intros ND. unfold to_synth. pose proof (copy_valued h ps) as C. destruct (copy_params h ps) as [h1 q]. destruct (for_each _ _ _) as [hd|] eqn:E; [|discriminate]. cbn [bind]. intro H. injection H as <- <-. cbn [ps_items].
  assert (forall k, (exists n, In n (seq 1 (b_num self)) /\ In k (map (fun p => key p n) ["per"; "tp"; "e"; "w"; "k"])) \/ valued (h1, ps_items q) k -> valued hd k) as Q.
  { apply (planets_valued _ (fun n k => In k (map (fun p => key p n) ["per"; "tp"; "e"; "w"; "k"]))) with (2 := E).
    intros s n s' H k. destruct (synth_of _ _) as [[[[[per tp] e] w] kk]|]; [|discriminate]. cbn [bind] in H. injection H as <-. intro H.
    set (f := setpar_to _ _ _ _). apply (sets_valued f (fun a => key (fst a) n) [("per", per); ("tp", tp); ("e", e); ("w", w); ("k", kk)]); [|exact H].
    intros hd0 a. unfold f, setpar_to. destruct (get_param _ _ _); eexists; (split; [reflexivity|]); cbn; eauto. }
  destruct hd as [h2 d2]. cbn [fst snd]. split.
  - intros k V. apply Q. right. now apply C.
  - intros p n Hp Hn. apply Q. left. exists n. split; [apply in_seq; lia|]. apply in_map_iff. eauto.
Qed.
Lemma print_valued h self ps h' self' q : NoDup (dkeys (ps_items ps)) -> from_synth h self ps print_basis true = Ok (h', self', Some q) ->
  (forall k, valued (h, ps_items ps) k -> valued (h', ps_items q) k) /\ (forall n, (1 <= n <= b_num self)%nat -> valued (h', ps_items q) (key "tc" n)).
Proof.
  intros ND. unfold from_synth. change (negb (str_in print_basis BASIS_NAMES)) with false. cbn iota. pose proof (copy_valued h ps) as C. destruct (copy_params h ps) as [h1 q0].
  destruct (for_each _ _ _) as [hd|] eqn:E; [|discriminate]. cbn [bind]. intro H. injection H as <- _ <-. cbn [ps_items].
  assert (forall k, (exists n, In n (seq 1 (b_num self)) /\ In k (map (fun p => key p n) ["tc"; "w"])) \/ valued (h1, ps_items q0) k -> valued hd k) as Q.
  { apply (planets_valued _ (fun n k => In k (map (fun p => key p n) ["tc"; "w"]))) with (2 := E).
    intros s n s' H k. unfold from_synth_of in H. change (String.eqb print_basis "per tc e w k") with false in H. change (String.eqb print_basis "per tc tp e w k") with true in H. cbn iota in H.
    destruct (getpar _ _ n "per") as [per|]; [|discriminate]. cbn [bind] in H. destruct (getpar _ _ n "e") as [e|]; [|discriminate]. cbn [bind] in H.
    destruct (getpar _ _ n "w") as [w|]; [|discriminate]. cbn [bind] in H. destruct (getpar _ _ n "tp") as [tp|]; [|discriminate]. cbn [bind] in H. injection H as <-. intro H.
    set (f := setpar_from _ _ _). apply (sets_valued f (fun a => key (fst a) n) [("tc", timeperi_to_timetrans tp per e w false); ("w", w)]); [|exact H].
    intros hd0 a. unfold f, setpar_from. destruct (get_param _ _ _); eexists; (split; [reflexivity|]); cbn; eauto. }
  destruct hd as [h2 d2]. cbn [fst snd]. split.
  - intros k V. apply Q. right. now apply C.
  - intros n Hn. apply Q. left. exists n. split; [apply in_seq; lia|]. now left.
Qed.
Lemma report_total h ps : NoDup (dkeys (ps_items ps)) -> b_name (ps_basis ps) = print_basis -> (forall p n, In p (split print_basis) -> (1 <= n <= b_num (ps_basis ps))%nat -> valued (h, ps_items ps) (key p n)) ->
  exists h' q, report_params h ps = Ok (h', Some q).
Proof.
  intros ND BN V. unfold report_params.
  assert (exists r, to_synth h (ps_basis ps) ps true None = Ok r) as [[h1 sp] E1].
  { unfold to_synth. destruct (copy_params h ps) as [h1 q]. match goal with |- context [for_each ?l ?b ?s] => destruct (planets_total b l s) as [s' ->] end; [|cbn [bind]; eauto].
    intros s n Hn. apply in_seq in Hn. rewrite BN. assert (forall p, In p (split print_basis) -> exists x, getpar h (ps_items ps) n p = Ok x) as G by (intros p Hp; apply valued_getpar, V; [exact Hp|lia]).
    unfold synth_of. change (String.eqb print_basis "per tp e w k") with false. change (String.eqb print_basis "per tc e w k") with false. cbn -[key getpar setpar_to timetrans_to_timeperi].
    destruct (G "per") as [a ->]; [cbn; tauto|]. cbn [bind]. destruct (G "e") as [b ->]; [cbn; tauto|]. destruct (G "w") as [c ->]; [cbn; tauto|]. destruct (G "tp") as [d ->]; [cbn; tauto|]. destruct (G "k") as [e ->]; [cbn; tauto|].
    try (destruct (G "tc") as [g ->]; [cbn; tauto|]). cbn [bind]. eauto. }
  rewrite E1. cbn [bind]. destruct (to_synth_keys _ _ _ _ _ _ _ E1) as (_ & N1 & _ & _ & B1). destruct (to_synth_valued _ _ _ _ _ _ _ ND E1) as [_ V1].
  unfold from_synth. change (negb (str_in print_basis BASIS_NAMES)) with false. cbn iota. destruct (copy_params h1 sp) as [h2 q].
  match goal with |- context [for_each ?l ?b ?s] => destruct (planets_total b l s) as [s' ->] end; [|cbn [bind]; eauto].
  intros s n Hn. apply in_seq in Hn. rewrite B1 in Hn. cbn [b_num basis_init] in Hn. assert (forall p, In p ["per"; "tp"; "e"; "w"; "k"] -> exists x, getpar h1 (ps_items sp) n p = Ok x) as G by (intros p Hp; apply valued_getpar, V1; [exact Hp|lia]).
  unfold from_synth_of. change (String.eqb print_basis "per tc e w k") with false. change (String.eqb print_basis "per tc tp e w k") with true. cbn iota.
  destruct (G "per") as [a ->]; [cbn; tauto|]. destruct (G "e") as [b ->]; [cbn; tauto|]. destruct (G "w") as [c ->]; [cbn; tauto|]. destruct (G "tp") as [d ->]; [cbn; tauto|]. cbn [bind]. eauto.
Qed.
Lemma report_twice h ps h1 q : NoDup (dkeys (ps_items ps)) -> report_params h ps = Ok (h1, Some q) -> exists h2 q2, report_params h1 q = Ok (h2, Some q2).
Proof.
  intros ND E. destruct (report_keys _ _ _ _ E) as (_ & _ & _ & N & _ & _ & B & _). apply report_total; [exact N|now rewrite B|]. rewrite B. cbn [b_num basis_init]. unfold report_params in E.
  destruct (to_synth _ _ _ _ _) as [[h' sp]|] eqn:E1; [|discriminate]. cbn [bind] in E. destruct (from_synth _ _ _ _ _) as [[[h2 b2] q2]|] eqn:E2; [|discriminate]. cbn [bind] in E. injection E as <- ->.
  destruct (to_synth_keys _ _ _ _ _ _ _ E1) as (_ & N1 & _ & _ & B1). destruct (to_synth_valued _ _ _ _ _ _ _ ND E1) as [_ V0]. destruct (print_valued _ _ _ _ _ _ N1 E2) as [V1 V2]. rewrite B1 in V2. cbn [b_num basis_init] in V2.
  intros p n Hp Hn. cbn in Hp. destruct Hp as [<-|[<-|[<-|[<-|[<-|[<-|[]]]]]]]; [|now apply V2| | | |]; apply V1, V0; auto; cbn; tauto.
Qed.
Lemma tex_labels_total pp letters l : NoDup l -> (forall k, In k l -> exists t, tex_label pp letters k None = Ok t) -> exists d, tex_labels pp letters l = Ok d.
Proof.
  unfold tex_labels. set (f := fun _ _ => _). intros ND H. enough (forall d0, (forall k, In k l -> dget d0 k = None) -> exists d, for_each l f d0 = Ok d) as Q by (apply Q; reflexivity).
  induction l as [|k l IH]; intros d0 Z; cbn [for_each]; [eauto|]. inversion ND as [|? ? NI ND']; subst. unfold f at 1. rewrite (Z k) by now left. destruct (H k) as [t ->]; [now left|]. cbn [bind].
  apply IH; [exact ND'|intros; apply H; now right|]. intros k' Hk. rewrite dget_dset_other by (intros ->; contradiction). apply Z. now right.
Qed.
Theorem report_further h ps fb chains h1 q cols quants l : NoDup (dkeys (ps_items ps)) -> b_num (ps_basis ps) = ps_num ps ->
  report_init h ps fb chains = Ok (h1, q, cols, quants) -> tex_labels (ps_pp q) (ps_letters q) (dkeys (ps_items q)) = Ok l ->
  exists t h2 q2 l2, fill_missing h1 (ps_items q) chains = Ok t /\ report_init h1 q fb t = Ok (h2, q2, cols, quants) /\ tex_labels (ps_pp q2) (ps_letters q2) (dkeys (ps_items q2)) = Ok l2 /\
  forall k, dget l2 k = dget l k.
Proof.
  intros ND BN E1 T1. pose proof E1 as E1'. unfold report_init in E1. destruct (report_params h ps) as [[h1' q1]|] eqn:P1; [|discriminate]. cbn [bind] in E1. destruct q1 as [q1|]; [|discriminate].
  destruct (report_chains h1' q1 fb chains) as [c1|] eqn:C1; [|discriminate]. cbn [bind] in E1. injection E1 as -> -> -> <-. destruct (report_twice _ _ _ _ ND P1) as (h2 & q2 & P2).
  destruct (again_keys _ _ _ _ _ _ BN P1 P2) as (K & N2 & N1 & L & PP & B). unfold report_chains in C1. destruct (fill_missing h1 (ps_items q) chains) as [t|] eqn:F; [|discriminate]. cbn [bind] in C1.
  destruct (tex_labels_get _ _ _ N1 _ T1) as [A1 A2]. destruct (tex_labels_total (ps_pp q2) (ps_letters q2) (dkeys (ps_items q2)) N2) as [l2 T2].
  { intros k Hk. apply K in Hk. destruct (A1 k Hk) as (x & X & _). rewrite PP, L. eauto. }
  assert (report_init h1 q fb t = Ok (h2, q2, cols, quantiles cols)) as E2.
  { unfold report_init. rewrite P2. cbn [bind]. unfold report_chains. rewrite (fill_none h2 (ps_items q2) t) by (intros k H; apply (filled _ _ _ _ F); now apply K). cbn [bind]. rewrite B.
    match goal with |- bind ?z _ = _ => assert (z = Ok cols) as -> by exact C1 end. reflexivity. }
  exists t, h2, q2, l2. split; [reflexivity|]. split; [exact E2|]. split; [exact T2|]. now destruct (report_again _ _ _ _ _ _ _ _ _ _ _ _ _ _ _ BN E1' F E2 T1 T2) as (_ & _ & Q).
Qed.
