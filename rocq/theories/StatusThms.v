(** Sequences of saves, crashes, and the choice of a sampler. *)
From Coq Require Import String Ascii Bool Lia List.
From Verif Require Import Py PyFacts Params Mass Status StatusProofs StatusSpec StatusRound StatusInv.
Import ListNotations.
Open Scope string_scope.

Lemma load_ok f c : load_status f = Ok c -> cfg_ok c.
Proof.
  destruct f as [t|]; cbn; intro H; [now apply parse_ok in H|].
  inversion H. repeat split; cbn; constructor.
Qed.

Lemma dmem_in {V} (d : dict V) k : dmem d k = true <-> In k (dkeys d).
Proof.
  unfold dmem. destruct (dget d k) eqn:E.
  - split; [intros _; now apply dget_key in E|auto].
  - split; [discriminate|]. intro H. apply dget_none in E. tauto.
Qed.

Lemma cfg_sec_ok c sec d : cfg_ok c -> dget (c_sec c) sec = Some d -> name_ok sec /\ sec <> "DEFAULT" /\ dict_ok d.
Proof. intros (_ & _ & F) H. exact (forall_dget _ _ _ _ F H). Qed.
Lemma cfg_put_ok c sec d : cfg_ok c -> name_ok sec -> sec <> "DEFAULT" -> dict_ok d -> cfg_ok (mkCfg (c_def c) (dset (c_sec c) sec d)).
Proof.
  intros (A & B & F) N D O. split; [exact A|]. split; [now apply wf_dset|]. cbn. apply forall_dset; auto.
Qed.
Lemma dict_put_ok d k v : dict_ok d -> item_ok (k, v) -> dict_ok (dset d k v).
Proof. intros (A & B) I. split; [now apply wf_dset|]. now apply forall_dset. Qed.

Lemma open_lower k v : String.prefix "[" k = false -> open_ok (lower k) v.
Proof.
  destruct k as [|c r]; [cbn; auto|]. unfold open_ok. cbn [lower String.prefix]. destruct (Ascii.ascii_dec "["%char c) as [E|N].
  - intro H. exfalso. destruct r; discriminate.
  - intros _ E. exfalso. apply N. clear -E. destruct c as [[] [] [] [] [] [] [] []]; cbn in E; try discriminate; reflexivity.
Qed.

Definition later (vars : dict string) (k : string) (o : option string) : option string :=
  fold_left (fun o kv => if String.eqb (lower (fst kv)) (lower k) then Some (snd kv) else o) vars o.
Lemma later_last vars k o : later vars k o = match last_in vars k with Some v => Some v | None => o end.
Proof.
  unfold last_in. revert o. induction vars as [|kv r IH]; intro o; [reflexivity|].
  unfold later in *. cbn [fold_left]. rewrite IH. symmetry. rewrite IH.
  destruct (fold_left _ r None); auto. destruct (String.eqb (lower (fst kv)) (lower k)); auto.
Qed.

Lemma set_status c sec k v d : dget (c_sec c) sec = Some d -> forall sec' k',
  status (mkCfg (c_def c) (dset (c_sec c) sec (dset d (lower k) v))) sec' k' =
  if String.eqb sec sec' then (if String.eqb (lower k) (lower k') then Some v else status c sec' k') else status c sec' k'.
Proof.
  intros H sec' k'. unfold status; cbn. destruct (String.eqb_spec sec sec') as [<-|N].
  - rewrite dget_dset_same. destruct (String.eqb_spec (lower k) (lower k')) as [<-|M].
    + apply dget_dset_same.
    + rewrite dget_dset_other by congruence. now rewrite H.
  - now rewrite dget_dset_other by congruence.
Qed.

Lemma sets vars : forall c sec, cfg_ok c -> sec <> "" -> dmem (c_sec c) sec = true ->
  Forall (fun kv => key_ok (lower (fst kv)) /\ val_ok (snd kv) /\ String.prefix "[" (fst kv) = false) vars ->
  exists c', for_each vars (fun c kv => cfg_set c sec kv) c = Ok c' /\ cfg_ok c' /\ c_def c' = c_def c /\ dkeys (c_sec c') = dkeys (c_sec c) /\
    forall sec' k', status c' sec' k' = if String.eqb sec sec' then later vars k' (status c sec' k') else status c sec' k'.
Proof.
  induction vars as [|[k v] r IH]; intros c sec O N M F.
  - exists c. cbn. repeat split; auto; try apply O. intros. now destruct (String.eqb sec sec').
  - apply Forall_cons_iff in F as ((K & V & B) & F). cbn in K, V, B.
    unfold dmem in M. destruct (dget (c_sec c) sec) as [d|] eqn:G; [|discriminate].
    destruct (cfg_sec_ok _ _ _ O G) as (Ns & Nd & Od).
    set (c1 := mkCfg (c_def c) (dset (c_sec c) sec (dset d (lower k) v))).
    assert (O1 : cfg_ok c1). { apply cfg_put_ok; auto. apply dict_put_ok; auto. split; [auto|]. split; [auto|]. now apply open_lower. }
    destruct (IH c1 sec O1 N) as (c' & E & O' & D & Ks & S); auto.
    { unfold dmem, c1; cbn. now rewrite dget_dset_same. }
    exists c'. split; [|split; [auto|]].
    + assert (Q : cfg_set c sec (k, v) = Ok c1). { unfold cfg_set. cbn [fst snd]. apply String.eqb_neq in N. now rewrite N, G. }
      cbn [for_each]. rewrite Q. exact E.
    + split; [now rewrite D|]. split.
      * rewrite Ks. unfold c1; cbn [c_sec]. rewrite dkeys_dset. unfold dmem. now rewrite G.
      * intros sec' k'. rewrite S. unfold c1. rewrite (set_status c sec k v d G). cbn [later fold_left fst snd].
        destruct (String.eqb sec sec'); reflexivity.
Qed.

(** one call *)
Theorem save_one f sec vars c0 : load_status f = Ok c0 -> save_ok (sec, vars) ->
  exists c, save_status f sec vars = (Some (write c), Ok tt) /\ load_status (Some (write c)) = Ok c /\ c_def c = c_def c0 /\
    dkeys (c_sec c) = (if has_section c0 sec then dkeys (c_sec c0) else (dkeys (c_sec c0) ++ [sec])%list) /\
    forall sec' k, status c sec' k = if String.eqb sec sec' then match last_in vars k with Some v => Some v | None => status c0 sec' k end else status c0 sec' k.
Proof.
  intros L ((Ne & Np) & Nd & F). cbn in Ne, Np, Nd, F. pose proof (load_ok _ _ L) as O.
  unfold save_status, updated. rewrite L. cbn [bind]. unfold has_section.
  assert (P : exists c1, (if dmem (c_sec c0) sec then Ok c0 else add_section c0 sec) = Ok c1 /\ cfg_ok c1 /\ dmem (c_sec c1) sec = true /\ c_def c1 = c_def c0 /\
    dkeys (c_sec c1) = (if dmem (c_sec c0) sec then dkeys (c_sec c0) else (dkeys (c_sec c0) ++ [sec])%list) /\ forall s k, status c1 s k = status c0 s k).
  { destruct (dmem (c_sec c0) sec) eqn:M.
    - exists c0. repeat split; auto; apply O.
    - unfold add_section. rewrite M. destruct (String.eqb_spec sec "DEFAULT"); [easy|].
      eexists. split; [reflexivity|]. split; [|split; [|split; [|split]]].
      + apply cfg_put_ok; auto; [split; auto|]. split; constructor.
      + unfold dmem; cbn. now rewrite dget_dset_same.
      + reflexivity.
      + cbn [c_sec]. rewrite dkeys_dset. now rewrite M.
      + intros s k. unfold status; cbn. destruct (String.eqb_spec s sec) as [->|Q].
        * rewrite dget_dset_same. cbn. unfold dmem in M. now destruct (dget (c_sec c0) sec).
        * now rewrite dget_dset_other by congruence. }
  destruct P as (c1 & -> & O1 & M1 & D1 & K1 & S1). cbn [bind].
  destruct (sets vars c1 sec O1 Ne M1 F) as (c & -> & Oc & Dc & Kc & Sc). exists c. split; [reflexivity|].
  split; [cbn; now apply parse_write|]. split; [congruence|]. split; [congruence|].
  intros s k. rewrite Sc, S1. destruct (String.eqb sec s); [|reflexivity]. apply later_last.
Qed.

Definition later_saved (saves : list (string * dict string)) (sec k : string) (o : option string) : option string :=
  fold_left (fun o s => if String.eqb (fst s) sec then match last_in (snd s) k with Some v => Some v | None => o end else o) saves o.
Lemma later_saved_last saves sec k o : later_saved saves sec k o = match last_saved saves sec k with Some v => Some v | None => o end.
Proof.
  unfold last_saved. fold (later_saved saves sec k None). revert o. induction saves as [|[s vs] r IH]; intro o; [reflexivity|].
  unfold later_saved in *. cbn [fold_left fst snd]. rewrite IH. symmetry. rewrite IH.
  destruct (fold_left _ r None); auto. destruct (String.eqb s sec); auto. destruct (last_in vs k); auto.
Qed.

(** any sequence of calls *)
Theorem save_sequence saves : Forall save_ok saves -> forall f c0, load_status f = Ok c0 ->
  exists f' c, save_all f saves = (f', Ok tt) /\ load_status f' = Ok c /\ c_def c = c_def c0 /\
    (forall sec, In sec (dkeys (c_sec c)) <-> In sec (dkeys (c_sec c0)) \/ In sec (map fst saves)) /\
    forall sec k, status c sec k = match last_saved saves sec k with Some v => Some v | None => status c0 sec k end.
Proof.
  intro F. induction F as [|[s vs] r O F IH]; intros f c0 L.
  - exists f, c0. cbn. repeat split; auto. intros [H|[]]; auto.
  - destruct (save_one f s vs c0 L O) as (c1 & E1 & L1 & D1 & K1 & S1).
    destruct (IH _ _ L1) as (f' & c & E & L' & D & K & S). exists f', c. cbn [save_all]. rewrite E1.
    split; [exact E|]. split; [exact L'|]. split; [congruence|]. split.
    + intro sec. rewrite K, K1. cbn [map fst]. unfold has_section. destruct (dmem (c_sec c0) s) eqn:M.
      * split; [intros [H|H]; [auto|right; now right]|]. intros [H|[<-|H]]; auto. left. apply dmem_in in M; auto.
      * rewrite in_app_iff. cbn. tauto.
    + intros sec k. rewrite S, <- later_saved_last, S1. unfold last_saved. cbn [fold_left fst snd].
      fold (later_saved r sec k (if String.eqb s sec then match last_in vs k with Some v => Some v | None => None end else None)).
      fold (later_saved ((s, vs) :: r) sec k None).
      transitivity (later_saved ((s, vs) :: r) sec k (status c0 sec k)); [reflexivity|]. rewrite later_saved_last.
      reflexivity.
Qed.

(** reading is stable under writing back *)
Theorem load_write_load t c : parse t = Ok c -> parse (write c) = Ok c.
Proof. intro H. apply parse_write. exact (parse_ok t c H). Qed.

(** a call that raises leaves the file as it was *)
Theorem save_raises f sec vars e : snd (save_status f sec vars) = Err e -> fst (save_status f sec vars) = f.
Proof. unfold save_status. destruct (updated f sec vars); cbn; [discriminate|reflexivity]. Qed.

(** what a crash can leave *)
Theorem crash_leaves f sec vars g : crashed f sec vars g ->
  g = f \/ exists t b, save_status f sec vars = (Some (t ++ b), Ok tt) /\ g = Some t.
Proof. intros [|c a b E W]; [auto|]. right. exists a, b. unfold save_status. rewrite E, W. auto. Qed.
(** the complete file is one of them *)
Theorem crash_complete f sec vars g : save_status f sec vars = (g, Ok tt) -> crashed f sec vars g.
Proof.
  unfold save_status. destruct (updated f sec vars) as [c|e] eqn:E; [|discriminate]. intro H; inversion H; subst.
  apply (cr_writing f sec vars c (write c) ""); auto. symmetry. clear. induction (write c) as [|a s IH]; cbn; congruence.
Qed.
(** every save can lose everything stored before *)
Theorem crash_loses f sec vars : (exists g, save_status f sec vars = (g, Ok tt)) ->
  exists g, crashed f sec vars g /\ load_status g = Ok no_config.
Proof.
  intros (g & H). unfold save_status in H. destruct (updated f sec vars) as [c|e] eqn:E; [|discriminate].
  exists (Some ""). split; [|reflexivity]. exact (cr_writing f sec vars c "" (write c) E eq_refl).
Qed.

(** ** Choice of the sampler *)
Definition recorded (c : config) (s : string) : Prop := has_section c s = true /\ getboolean c s "run" = Ok true.
Lemma has_run_true c s : has_run c s = Ok true <-> recorded c s.
Proof. unfold has_run, recorded. destruct (has_section c s); [tauto|]. split; [discriminate|intros (H & _); discriminate]. Qed.

Theorem pick_sound s c r : pick_sampler s c = Ok r ->
  (r = "mcmc" \/ r = "ns") /\ recorded c r /\ (s = r \/ s = "auto") /\ (s = "auto" -> r = "ns" -> ~ recorded c "mcmc").
Proof.
  unfold pick_sampler. rewrite <- !has_run_true. intro H.
  destruct (has_run c "mcmc") as [a|] eqn:A; [|discriminate]. destruct (has_run c "ns") as [b|] eqn:B; [|discriminate]. cbn [bind] in H.
  assert (D : (s = "auto" \/ s = "mcmc" \/ s = "ns") /\ a || b = true).
  { destruct (a || b); [|discriminate]. cbn [negb] in H. split; [|reflexivity].
    destruct (String.eqb_spec s "auto"); [auto|]. destruct (String.eqb_spec s "mcmc"); [auto|]. destruct (String.eqb_spec s "ns"); [auto|discriminate]. }
  destruct D as (D & ab). rewrite ab in H.
  destruct D as [->|[->| ->]]; cbn in H; destruct a, b; try discriminate; inversion H; subst r; repeat split; auto; try congruence; intros; congruence.
Qed.
Theorem pick_complete c a b : has_run c "mcmc" = Ok a -> has_run c "ns" = Ok b -> forall s,
  (a = true -> s = "auto" \/ s = "mcmc" -> pick_sampler s c = Ok "mcmc") /\
  (b = true -> (s = "auto" /\ a = false) \/ s = "ns" -> pick_sampler s c = Ok "ns") /\
  (a = false -> b = false -> pick_sampler s c = Err AssertionError) /\
  (a || b = true -> (s = "mcmc" /\ a = false) \/ (s = "ns" /\ b = false) \/ ~ In s ["auto"; "mcmc"; "ns"] -> pick_sampler s c = Err ValueError).
Proof.
  intros A B s. unfold pick_sampler. rewrite A, B. cbn [bind].
  repeat split; intros.
  - subst a. destruct H0; subst s; reflexivity.
  - subst b. destruct H0 as [(-> & ->)| ->]; [reflexivity|destruct a; reflexivity].
  - subst. reflexivity.
  - rewrite H. cbn [negb]. destruct H0 as [(-> & ->)|[(-> & ->)|N]]; [reflexivity|reflexivity|].
    destruct (String.eqb_spec s "auto") as [->|]; [exfalso; apply N; cbn; auto|].
    destruct (String.eqb_spec s "mcmc") as [->|]; [exfalso; apply N; cbn; auto|].
    destruct (String.eqb_spec s "ns") as [->|]; [exfalso; apply N; cbn; auto|]. reflexivity.
Qed.
(** a damaged record raises too *)
Theorem pick_raises c s e : has_run c "mcmc" = Err e \/ (exists a, has_run c "mcmc" = Ok a) /\ has_run c "ns" = Err e -> pick_sampler s c = Err e.
Proof. unfold pick_sampler. intros [->|((a & ->) & ->)]; reflexivity. Qed.

(** together with the status file: from no file, any stages saved in any order *)
Definition ran (o : option string) : Prop := o = Some "True".
Theorem pick_after_saves saves : Forall save_ok saves ->
  (forall sec, In sec (map fst saves) -> sec = "mcmc" \/ sec = "ns" -> ran (last_saved saves sec "run")) ->
  exists f c, save_all None saves = (f, Ok tt) /\ load_status f = Ok c /\
    (In "mcmc" (map fst saves) -> pick_sampler "auto" c = Ok "mcmc" /\ pick_sampler "mcmc" c = Ok "mcmc") /\
    (In "ns" (map fst saves) -> pick_sampler "ns" c = Ok "ns") /\
    (~ In "mcmc" (map fst saves) -> In "ns" (map fst saves) -> pick_sampler "auto" c = Ok "ns") /\
    (~ In "mcmc" (map fst saves) -> ~ In "ns" (map fst saves) -> forall s, pick_sampler s c = Err AssertionError).
Proof.
  intros F R. destruct (save_sequence saves F None no_config eq_refl) as (f & c & E & L & D & K & S).
  exists f, c. split; [exact E|]. split; [exact L|].
  assert (H : forall sec, sec = "mcmc" \/ sec = "ns" -> (In sec (map fst saves) -> has_run c sec = Ok true) /\ (~ In sec (map fst saves) -> has_run c sec = Ok false)).
  { intros sec Hs. pose proof (K sec) as Ks. cbn in Ks. unfold has_run, has_section. split; intro I.
    - assert (M : dmem (c_sec c) sec = true) by (apply dmem_in; apply Ks; auto). rewrite M.
      specialize (R sec I Hs). unfold ran in R. pose proof (S sec "run") as Q. rewrite R in Q.
      unfold getboolean, cfg_get, sec_get. unfold status in Q.
      replace (String.eqb sec "DEFAULT") with false by (destruct Hs; subst; reflexivity).
      destruct (dget (c_sec c) sec) as [d|]; [|discriminate]. rewrite Q. reflexivity.
    - destruct (dmem (c_sec c) sec) eqn:M; [|reflexivity]. apply dmem_in in M. apply Ks in M. tauto. }
  destruct (H "mcmc" (or_introl eq_refl)) as (A1 & A2), (H "ns" (or_intror eq_refl)) as (B1 & B2).
  assert (DecM : In "mcmc" (map fst saves) \/ ~ In "mcmc" (map fst saves)) by (destruct (in_dec string_dec "mcmc" (map fst saves)); auto).
  assert (DecN : In "ns" (map fst saves) \/ ~ In "ns" (map fst saves)) by (destruct (in_dec string_dec "ns" (map fst saves)); auto).
  unfold pick_sampler.
  destruct DecM as [m|m], DecN as [n|n]; rewrite ?(A1 m), ?(A2 m), ?(B1 n), ?(B2 n); cbn; repeat split; intros; try tauto; reflexivity.
Qed.

(** values and keys outside [save_ok] are stored as something else, silently *)
Theorem save_altered_refuted :
  exists sec k v f c, save_status None sec [(k, v)] = (Some f, Ok tt) /\ load_status (Some f) = Ok c /\ status c sec k <> Some v /\ status c sec k <> None.
Proof.
  exists "fit", "name", " x", ("[fit]" ++ String nl ("name =  x" ++ String nl (String nl ""))). eexists.
  split; [reflexivity|]. split; [reflexivity|]. split; discriminate.
Qed.
Theorem save_key_refuted :
  exists sec k v f c, save_status None sec [(k, v)] = (Some f, Ok tt) /\ load_status (Some f) = Ok c /\ status c sec k = None /\ status c sec "a" = Some "b = x".
Proof.
  exists "fit", "a:b", "x", ("[fit]" ++ String nl ("a:b = x" ++ String nl (String nl ""))). eexists.
  split; [reflexivity|]. split; [reflexivity|]. split; reflexivity.
Qed.
(** or make the file unreadable for all later stages *)
Theorem save_unreadable_refuted :
  exists f0 sec k v f, load_status f0 <> Ok no_config /\ save_status f0 sec [(k, v)] = (Some f, Ok tt) /\ load_status (Some f) = Err PlainException.
Proof.
  exists (Some ("[fit]" ++ String nl ("run = True" ++ String nl ""))), "fit", "=k", "x". eexists.
  split; [intro H; vm_compute in H; discriminate|]. split; reflexivity.
Qed.
(** no two stages may be written under the name of the common section *)
Theorem save_default f c vars : load_status f = Ok c -> save_status f "DEFAULT" vars = (f, Err ValueError).
Proof.
  intro L. unfold save_status, updated. rewrite L. cbn [bind].
  assert (M : dmem (c_sec c) "DEFAULT" = false).
  { destruct (dmem (c_sec c) "DEFAULT") eqn:E; [|reflexivity]. unfold dmem in E. destruct (dget (c_sec c) "DEFAULT") as [d|] eqn:G; [|discriminate].
    destruct (cfg_sec_ok _ _ _ (load_ok _ _ L) G) as (_ & N & _). easy. }
  rewrite M. reflexivity.
Qed.
