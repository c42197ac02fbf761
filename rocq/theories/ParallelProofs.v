From Coq Require Import Reals String Arith Bool Lia List.
From Verif Require Import Py Parallel ParallelSpec.
Import ListNotations.
Open Scope nat_scope.

Section Proofs.
  Variables (Smp Pos G PS : Type).
  Variable eval : PS -> list (option R) -> PS * res ext.
  Variable where_from : nat -> G -> Smp -> res (G * Pos).
  Variables (one many : Pos -> Smp -> prog Smp).
  Variable between : G -> list Smp -> res (G * list Smp * bool).
  Variable raised : list exn -> exn.
  Variables (f : list (option R) -> res ext) (I : PS -> Prop).
  Hypothesis ST : steady eval f I.

  (** ** without posteriors *)
  Fixpoint pexec {A} (p : prog A) : res A :=
    match p with Ret a => Ok a | Fail e => Err e | Ask x k => match f x with Ok y => pexec (k y) | Err e => Err e end end.
  Fixpoint pfirst (i : nat) (g : G) (ss : list Smp) : res (G * list (Smp * Pos)) :=
    match ss with
    | [] => Ok (g, [])
    | s :: ss' => do (g1, p) <- where_from i g s; do s1 <- pexec (one p s); do (g2, l) <- pfirst (S i) g1 ss'; Ok (g2, (s1, p) :: l)
    end.
  Fixpoint pturn (inp : list (Smp * Pos)) : res (list Smp) :=
    match inp with [] => Ok [] | (s, p) :: inp' => do s1 <- pexec (many p s); do l <- pturn inp'; Ok (s1 :: l) end.
  Fixpoint prounds (n : nat) (g : G) (ss : list Smp) : res (G * list Smp) :=
    match n with
    | O => Ok (g, ss)
    | S n' =>
        do (g1, inp) <- pfirst 0 g ss; do ss1 <- pturn inp; do (x, stop) <- between g1 ss1;
        let ss2 := map fst (combine (snd x) ss1) in if stop then Ok (fst x, ss2) else prounds n' (fst x) ss2
    end.

  Lemma exec_pure {A} (p : prog A) : forall ps, I ps -> I (fst (exec PS eval p ps)) /\ snd (exec PS eval p ps) = pexec p.
  Proof.
    induction p as [a|e|x k IH]; intros ps H; cbn [exec pexec]; auto.
    destruct (ST ps x H) as [H1 H2]. destruct (eval ps x) as [ps1 r]. cbn [fst snd] in *. subst r.
    destruct (f x); auto.
  Qed.

  Lemma put_length h o (ps : PS) : o < length h -> length (put PS h o ps) = length h.
  Proof. intro L. unfold put. rewrite app_length, firstn_length. cbn [length]. rewrite skipn_length. lia. Qed.
  Lemma put_forall h o (ps : PS) : Forall I h -> I ps -> Forall I (put PS h o ps).
  Proof.
    intros F H. unfold put. apply Forall_app. split; [|constructor; auto].
    - apply Forall_forall. intros x Hx. rewrite Forall_forall in F. apply F. rewrite <- (firstn_skipn o h). apply in_or_app. now left.
    - apply Forall_forall. intros x Hx. rewrite Forall_forall in F. apply F. rewrite <- (firstn_skipn (S o) h). apply in_or_app. now right.
  Qed.

  Lemma exec_on_pure {A} (p : prog A) o h : Forall I h -> o < length h ->
    exists h', exec_on PS eval p o h = (h', pexec p) /\ Forall I h' /\ length h' = length h.
  Proof.
    intros F L. unfold exec_on. destruct (nth_error h o) as [ps|] eqn:E; [|apply nth_error_None in E; lia].
    rewrite Forall_forall in F. pose proof (F ps (nth_error_In _ _ E)) as H. rewrite <- Forall_forall in F.
    destruct (exec_pure p ps H) as [H1 H2]. destruct (exec PS eval p ps) as [ps1 r]. cbn [fst snd] in *. subst r.
    eexists. split; [reflexivity|]. split; [now apply put_forall|now apply put_length].
  Qed.

  Definition refs_ok (h : list PS) (ss : list (obj Smp)) : Prop := Forall (fun s => o_post s < length h) ss.

  Lemma first_pure ss : forall i g h, Forall I h -> refs_ok h ss ->
    exists h', Forall I h' /\ length h' = length h /\
    match pfirst i g (map o_smp ss) with
    | Err e => first_steps Smp Pos G PS eval where_from one i g ss h = (h', Err e)
    | Ok (g1, l) => exists inp, first_steps Smp Pos G PS eval where_from one i g ss h = (h', Ok (g1, inp)) /\
        map (fun x => (o_smp (fst x), snd x)) inp = l /\ refs_ok h' (map fst inp) /\ map (fun x => o_post (fst x)) inp = map o_post ss
    end.
  Proof.
    induction ss as [|s ss IH]; intros i g h F RO; cbn [map pfirst first_steps].
    - exists h. repeat split; auto. exists []. repeat split; auto; constructor.
    - inversion RO as [|? ? R1 R2]; subst. destruct (where_from i g (o_smp s)) as [[g1 p]|e]; cbn [bind].
      2:{ exists h. auto. }
      destruct (exec_on_pure (one p (o_smp s)) (o_post s) h F R1) as (h1 & -> & F1 & L1).
      destruct (pexec (one p (o_smp s))) as [s1|e]; cbn [bind]; [|exists h1; auto].
      assert (refs_ok h1 ss) as RO1 by (unfold refs_ok in *; now rewrite L1).
      destruct (IH (S i) g1 h1 F1 RO1) as (h2 & F2 & L2 & Q).
      exists h2. split; auto. split; [congruence|].
      destruct (pfirst (S i) g1 (map o_smp ss)) as [[g2 l]|e]; cbn [bind].
      + destruct Q as (inp & -> & Q1 & Q2 & Q3). eexists. split; [reflexivity|]. cbn [map fst snd o_smp o_post].
        rewrite Q1, Q3. repeat split; auto. constructor; auto. cbn. congruence.
      + now rewrite Q.
  Qed.

  Lemma turn_pure inp : forall h, Forall I h -> refs_ok h (map fst inp) ->
    exists h', Forall I h' /\ length h' = length h /\
    match pturn (map (fun x => (o_smp (fst x), snd x)) inp) with
    | Err e => in_turn Smp Pos PS eval many inp h = (h', Err e)
    | Ok l => exists ss, in_turn Smp Pos PS eval many inp h = (h', Ok ss) /\ map o_smp ss = l /\ refs_ok h' ss
    end.
  Proof.
    induction inp as [|[s p] inp IH]; intros h F RO; cbn [map pturn in_turn fst snd].
    - exists h. repeat split; auto. exists []. repeat split; auto; constructor.
    - inversion RO as [|? ? R1 R2]; subst. cbn [fst] in R1.
      destruct (exec_on_pure (many p (o_smp s)) (o_post s) h F R1) as (h1 & -> & F1 & L1).
      destruct (pexec (many p (o_smp s))) as [s1|e]; cbn [bind]; [|exists h1; auto].
      assert (refs_ok h1 (map fst inp)) as RO1 by (unfold refs_ok in *; now rewrite L1).
      destruct (IH h1 F1 RO1) as (h2 & F2 & L2 & Q).
      exists h2. split; auto. split; [congruence|].
      destruct (pturn _) as [l|e]; cbn [bind].
      + destruct Q as (ss & -> & Q1 & Q2). eexists. split; [reflexivity|]. cbn [map o_smp]. rewrite Q1. split; auto.
        constructor; auto. cbn. congruence.
      + now rewrite Q.
  Qed.

  Lemma received_ok l : forall h, Forall I h -> Forall (fun x => I (snd x)) l ->
    exists h' ss, received Smp PS l h = (h', ss) /\ Forall I h' /\ map o_smp ss = map fst l /\ refs_ok h' ss /\ length h <= length h'.
  Proof.
    induction l as [|[s ps] l IH]; intros h F FL; cbn [received].
    - exists h, []. repeat split; auto; constructor.
    - inversion FL as [|? ? F1 F2]; subst. cbn [snd] in F1.
      destruct (IH (h ++ [ps])) as (h' & ss & -> & Q1 & Q2 & Q3 & Q4); auto.
      { apply Forall_app. split; auto. }
      rewrite app_length in Q4. cbn in Q4. exists h', (mkObj s (length h) :: ss). split; auto. split; auto.
      cbn [map o_smp fst]. rewrite Q2. split; auto. split; [|lia]. constructor; auto. cbn. lia.
  Qed.

  Lemma pool_workers inp : forall h, Forall I h -> refs_ok h (map fst inp) ->
    let outs := map (worker Smp Pos PS eval many h) inp in
    match pturn (map (fun x => (o_smp (fst x), snd x)) inp) with
    | Err e => errors outs <> []
    | Ok l => errors outs = [] /\ map fst (values outs) = l /\ Forall (fun x => I (snd x)) (values outs)
    end.
  Proof.
    induction inp as [|[s p] inp IH]; intros h F RO; cbn [map pturn fst snd].
    - repeat split; auto; constructor.
    - inversion RO as [|? ? R1 R2]; subst. cbn [fst] in R1. specialize (IH h F R2). cbn zeta in IH |- *.
      assert (exists ps1, I ps1 /\ worker Smp Pos PS eval many h (s, p) = (do s1 <- pexec (many p (o_smp s)); Ok (s1, ps1))) as (ps1 & H1 & EW).
      { unfold worker. cbn [fst snd]. destruct (nth_error h (o_post s)) as [ps|] eqn:E; [|apply nth_error_None in E; lia].
        pose proof (proj1 (Forall_forall _ _) F ps (nth_error_In _ _ E)) as H.
        destruct (exec_pure (many p (o_smp s)) ps H) as [H1 H2].
        destruct (exec PS eval (many p (o_smp s)) ps) as [ps1 r]. cbn [fst snd] in *. subst r. eauto. }
      rewrite EW.
      destruct (pexec (many p (o_smp s))) as [s1|e]; cbn [bind errors values]; [|discriminate].
      destruct (pturn _) as [l|e]; cbn [bind]; auto.
      destruct IH as (A & B & C). split; auto. cbn [map fst]. rewrite B. split; auto.
  Qed.

  Lemma pool_pure inp h : Forall I h -> refs_ok h (map fst inp) ->
    exists h', Forall I h' /\
    match pturn (map (fun x => (o_smp (fst x), snd x)) inp) with
    | Err e => exists e', in_pool Smp Pos PS eval many raised inp h = (h', Err e')
    | Ok l => exists ss, in_pool Smp Pos PS eval many raised inp h = (h', Ok ss) /\ map o_smp ss = l /\ refs_ok h' ss
    end.
  Proof.
    intros F RO. pose proof (pool_workers inp h F RO) as Q. cbn zeta in Q. unfold in_pool.
    destruct (pturn _) as [l|e].
    - destruct Q as (A & B & C). rewrite A.
      destruct (received_ok _ h F C) as (h' & ss & -> & Q1 & Q2 & Q3 & _). exists h'. split; auto.
      exists ss. repeat split; auto. congruence.
    - exists h. split; auto. destruct (errors _) as [|e1 es]; [contradiction|]. eexists. reflexivity.
  Qed.

  Lemma zip_refs h sm : forall ss, refs_ok h ss ->
    refs_ok h (map (fun x => mkObj (fst x) (o_post (snd x))) (combine sm ss)) /\
    map o_smp (map (fun x : Smp * obj Smp => mkObj (fst x) (o_post (snd x))) (combine sm ss)) = map fst (combine sm (map o_smp ss)).
  Proof.
    induction sm as [|s sm IH]; intros [|o ss] RO; cbn; try (split; [constructor|reflexivity]).
    inversion RO; subst. destruct (IH ss) as [A B]; auto. split; [constructor; auto|]. now rewrite B.
  Qed.

  Lemma rounds_pure serial n : forall g ss h, Forall I h -> refs_ok h ss ->
    let '(h', r) := rounds Smp Pos G PS eval where_from one many between raised serial n g ss h in
    Forall I h' /\
    match prounds n g (map o_smp ss) with
    | Err _ => exists e, r = Err e
    | Ok (g', l) => exists ss', r = Ok (g', ss') /\ map o_smp ss' = l
    end.
  Proof.
    induction n as [|n IH]; intros g ss h F RO; cbn [rounds prounds].
    - split; auto. eauto.
    - destruct (first_pure ss 0 g h F RO) as (h1 & F1 & L1 & Q).
      destruct (pfirst 0 g (map o_smp ss)) as [[g1 l]|e]; cbn [bind].
      2:{ rewrite Q. split; eauto. }
      destruct Q as (inp & -> & Q1 & Q2 & _). rewrite <- Q1.
      assert (exists h2, Forall I h2 /\
        match pturn (map (fun x => (o_smp (fst x), snd x)) inp) with
        | Err e => exists e', (if serial then in_turn Smp Pos PS eval many inp h1 else in_pool Smp Pos PS eval many raised inp h1) = (h2, Err e')
        | Ok l => exists ss, (if serial then in_turn Smp Pos PS eval many inp h1 else in_pool Smp Pos PS eval many raised inp h1) = (h2, Ok ss) /\
            map o_smp ss = l /\ refs_ok h2 ss
        end) as (h2 & F2 & P).
      { destruct serial.
        - destruct (turn_pure inp h1 F1 Q2) as (h2 & F2 & _ & P). exists h2. split; auto. destruct (pturn _); eauto.
        - exact (pool_pure inp h1 F1 Q2). }
      destruct (pturn _) as [sm|e]; cbn [bind].
      2:{ destruct P as (e' & ->). split; eauto. }
      destruct P as (ss1 & -> & P1 & P2). rewrite <- P1.
      destruct (between g1 (map o_smp ss1)) as [[[g2 sm2] stop]|e]; cbn [bind fst snd].
      2:{ split; eauto. }
      destruct (zip_refs h2 sm2 ss1 P2) as [Z1 Z2]. rewrite <- Z2. destruct stop.
      + split; eauto.
      + apply IH; auto.
  Qed.

  Lemma sampling_pure serial n g ss post : I post ->
    let '(h, r) := sampling Smp Pos G PS eval where_from one many between raised serial n g ss post in
    Forall I h /\ agrees r (prounds n g ss).
  Proof.
    intro H. unfold sampling.
    pose proof (rounds_pure serial n g (map (fun s => mkObj s 0) ss) [post]) as Q.
    destruct (rounds _ _ _ _ _ _ _ _ _ _ _ _ _ _) as [h r].
    rewrite map_map in Q. cbn [o_smp] in Q. rewrite map_id in Q.
    destruct Q as [F Q]; [now constructor|apply Forall_forall; intros x Hx; apply in_map_iff in Hx; destruct Hx as (y & <- & _); cbn; lia|].
    split; auto. destruct (prounds n g ss) as [[g' l]|e].
    - destruct Q as (ss' & -> & Q). cbn. congruence.
    - destruct Q as (e' & ->). exact Logic.I.
  Qed.
End Proofs.

Lemma agrees_via {A} (a b c : res A) : agrees a c -> agrees b c -> agrees a b.
Proof. destruct a, b, c; cbn; intros; subst; auto; contradiction. Qed.

Theorem same_chains {Smp Pos G PS} eval where_from one many between raised raised' f I n g ss post post' :
  steady eval f I -> I post -> I post' ->
  agrees (snd (sampling Smp Pos G PS eval where_from one many between raised true n g ss post))
         (snd (sampling Smp Pos G PS eval where_from one many between raised' false n g ss post')).
Proof.
  intros ST H H'.
  pose proof (sampling_pure Smp Pos G PS eval where_from one many between raised f I ST true n g ss post H) as Q.
  pose proof (sampling_pure Smp Pos G PS eval where_from one many between raised' f I ST false n g ss post' H') as Q'.
  destruct (sampling _ _ _ _ _ _ _ _ _ _ true _ _ _ _), (sampling _ _ _ _ _ _ _ _ _ _ false _ _ _ _).
  destruct Q as [_ Q], Q' as [_ Q']. eapply agrees_via; eauto.
Qed.
