(** C76: the numbers behind the panels. *)
From Coq Require Import Reals String ZArith Arith Bool Lia Lra List.
From Verif Require Import Py PyFloat PyFacts PyFloatFacts Params ParamsProofs ParamsSpec VectorProofs Kepler Basis BasisProofs BasisConv BasisThms BasisModel VConv RVModel RVModelProofs ModelThms Likelihood LikeSpec LikeProofs LikeHist LikeBuild LikeAlign Phase PhaseProofs Stats FastBin FastBinSpec FastBinProofs Timebin BintelsProofs TelPlot TelPlotSpec TelPlotProofs TelPlotThms Panels PanelSpec.
Import ListNotations.
Open Scope R_scope.

(** ** Tables *)
Lemma per_row_len F t : forall i y e, length y = length t -> length e = length t -> length (per_row F i t y e) = length t.
Proof. induction t as [|a t IH]; intros i [|b y] [|c e] H1 H2; try discriminate; auto. cbn. f_equal. apply IH; cbn in *; lia. Qed.
Lemma per_row_t t : forall i y e, length y = length t -> length e = length t -> per_row (fun _ t _ _ => t) i t y e = t.
Proof. induction t as [|a t IH]; intros i [|b y] [|c e] H1 H2; try discriminate; auto. cbn. f_equal. apply IH; cbn in *; lia. Qed.
Lemma per_row_ext F G t : forall i y e, (forall i t' y e, In t' t -> F i t' y e = G i t' y e) -> per_row F i t y e = per_row G i t y e.
Proof.
  induction t as [|a t IH]; intros i y e H; [reflexivity|]. destruct y as [|b y], e as [|c e]; auto. cbn. f_equal; [apply H; now left|].
  apply IH. intros; apply H; now right.
Qed.
Lemma per_row_map2 (op : R -> R -> R) F (g : R -> R) t : forall i y e, length y = length t -> length e = length t ->
  map2 op (per_row F i t y e) (map g t) = per_row (fun i t y e => op (F i t y e) (g t)) i t y e.
Proof. induction t as [|a t IH]; intros i [|b y] [|c e] H1 H2; try discriminate; auto. cbn. f_equal. apply IH; cbn in *; lia. Qed.

Definition sized (d : dataset) : Prop := length (ds_y d) = length (ds_t d) /\ length (ds_err d) = length (ds_t d).
Lemma map2_app {A B C} (f : A -> B -> C) a1 : forall b1 a2 b2, length a1 = length b1 -> map2 f (a1 ++ a2) (b1 ++ b2) = (map2 f a1 b1 ++ map2 f a2 b2)%list.
Proof. induction a1 as [|x a1 IH]; intros [|y b1] a2 b2 H; try discriminate; [reflexivity|]. cbn. f_equal. apply IH. cbn in H. lia. Qed.
Lemma tabulate_len F ds : forall k, Forall sized ds -> length (tabulate F k ds) = length (times ds).
Proof.
  unfold times. induction ds as [|d ds IH]; intros k H; [reflexivity|]. inversion H as [|? ? [H1 H2] H3]; subst. cbn. rewrite !app_length, IH by auto.
  now rewrite per_row_len.
Qed.
Lemma tels_len ds : length (tels ds) = length (times ds).
Proof. unfold tels, times. induction ds as [|d ds IH]; [reflexivity|]. cbn. rewrite !app_length, map_length. lia. Qed.
Lemma tabulate_ext F G ds : forall k, (forall k i t y e, In t (times ds) -> F k i t y e = G k i t y e) -> tabulate F k ds = tabulate G k ds.
Proof.
  unfold times. induction ds as [|d ds IH]; intros k H; [reflexivity|]. cbn in *. f_equal.
  - apply per_row_ext. intros; apply H, in_or_app; now left.
  - apply IH. intros; apply H, in_or_app; now right.
Qed.
Lemma tabulate_map2 (op : R -> R -> R) F (g : R -> R) ds : forall k, Forall sized ds ->
  map2 op (tabulate F k ds) (map g (times ds)) = tabulate (fun k i t y e => op (F k i t y e) (g t)) k ds.
Proof.
  unfold times. induction ds as [|d ds IH]; intros k H; [reflexivity|]. inversion H as [|? ? [H1 H2] H3]; subst. cbn [tabulate map concat].
  rewrite map_app, map2_app; [|rewrite per_row_len, map_length; auto]. rewrite per_row_map2, IH; auto.
Qed.

(** ** Sums over planets *)
Lemma rsum_cons a l : rsum (a :: l) = a + rsum l.
Proof. reflexivity. Qed.
Lemma rsum_others (c : nat -> R) n l : NoDup l -> In n l ->
  rsum (map c l) = c n + rsum (map c (filter (fun m => negb (Nat.eqb m n)) l)).
Proof.
  induction l as [|a l IH]; intros ND Hn; [destruct Hn|]. inversion ND; subst. cbn [map filter]. destruct (Nat.eqb_spec a n) as [->|N]; cbn [negb].
  - rewrite rsum_cons. f_equal. f_equal. f_equal. clear -H1. induction l as [|b l IH]; [reflexivity|]. cbn. destruct (Nat.eqb_spec b n) as [->|]; cbn.
    + exfalso. apply H1. now left.
    + f_equal. apply IH. intro. apply H1. now right.
  - cbn [map]. rewrite !rsum_cons, IH; auto; [lra|]. destruct Hn; [congruence|auto].
Qed.

(** ** Rows of the array *)
Lemma dv_row h d idx ks k i : forall v v', for_each ks (dv_step h d idx) v = Ok v' -> In k ks -> dget idx k = Some i ->
  (forall k', In k' ks -> dget idx k' = Some i -> k' = k) -> exists p b, get_param h d k = Some p /\ p_vary p = VBool b /\
    nth_error v' i = Some (mkRow (p_value p) b (match p_scale p with None => Some 0 | Some s => Some s end) (p_lin p)).
Proof.
  assert (forall ks v v', for_each ks (dv_step h d idx) v = Ok v' -> (forall k', In k' ks -> dget idx k' <> Some i) -> nth_error v' i = nth_error v i) as Q.
  { induction ks0 as [|a ks0 IH]; cbn [for_each]; intros v v' H N; [injection H as <-; reflexivity|].
    unfold dv_step at 1 in H. destruct (dget idx a) as [j|] eqn:Ej; cbn [bind] in H.
    - destruct (get_param h d a) as [p|]; [|discriminate]. destruct (Nat.ltb j (length v)); [|discriminate]. destruct (p_vary p); [|discriminate].
      cbn [bind] in H. rewrite (IH _ _ H) by (intros; apply N; now right). apply nth_list_upd_other. intros ->. exact (N a (or_introl eq_refl) Ej).
    - apply (IH _ _ H). intros; apply N; now right. }
  induction ks as [|a ks IH]; cbn [for_each]; intros v v' H Hk Hi U; [destruct Hk|].
  destruct (in_dec string_dec k ks) as [Hin|Hn].
  - unfold dv_step at 1 in H. destruct (dget idx a) as [j|] eqn:Ej; cbn [bind] in H.
    + destruct (get_param h d a) as [p|]; [|discriminate]. destruct (Nat.ltb j (length v)); [|discriminate]. destruct (p_vary p); [|discriminate].
      cbn [bind] in H. apply (IH _ _ H); auto. intros; apply U; auto. now right.
    + apply (IH _ _ H); auto. intros; apply U; auto. now right.
  - destruct Hk as [->|]; [|easy]. unfold dv_step at 1 in H. rewrite Hi in H.
    destruct (get_param h d k) as [p|] eqn:Ep; [|discriminate]. destruct (Nat.ltb_spec i (length v)) as [L|]; [|discriminate].
    destruct (p_vary p) as [b|] eqn:Eb; [|discriminate]. cbn [bind] in H. exists p, b. split; auto. split; auto.
    rewrite (Q _ _ _ H).
    + now apply nth_list_upd_same.
    + intros k' Hk' E'. assert (k' = k) by (apply U; [now right|auto]). now subst.
Qed.
Lemma d2v_row h d idx k i v : dict_to_vector h d idx = Ok v -> In k (dkeys d) -> dget idx k = Some i ->
  (forall k', dget idx k' = Some i -> k' = k) -> exists p b, get_param h d k = Some p /\ p_vary p = VBool b /\
    nth_error v i = Some (mkRow (p_value p) b (match p_scale p with None => Some 0 | Some s => Some s end) (p_lin p)).
Proof. intros H Hk Hi U. eapply dv_row; eauto. Qed.

(** ** Series *)
Lemma mtel_loop_inv {X} (x : list X) y e tel rv l : forall st st', for_each l (mtel_step x y e tel rv) st = Ok st' -> exists kws,
  length kws = length l /\ snd st' = (snd st ++ map (fun tk => mkSer (fst tk) (select tel (fst tk) x) (select tel (fst tk) y) (select tel (fst tk) e) (snd tk)) (combine l kws))%list.
Proof.
  induction l as [|t l IH]; cbn [for_each]; intros st st' H.
  - injection H as <-. exists []. split; [reflexivity|]. cbn. now rewrite app_nil_r.
  - destruct st as [[fm ci] out]. unfold mtel_step at 1 in H. destruct (_ && _); [|discriminate].
    destruct (choose_fmt fm ci t) as [[[fm1 ci1] f]|]; [|discriminate]. cbn [bind] in H.
    destruct (match rv with [] => Ok 0 | _ => dget_res rv t end) as [r|]; [|discriminate]. cbn [bind] in H.
    destruct (telplot_kw t f r) as [kw|]; [|discriminate]. cbn [bind] in H. destruct (IH _ _ H) as (kws & L & E).
    exists (kw :: kws). split; [cbn; lia|]. rewrite E. cbn [snd combine map fst]. now rewrite <- app_assoc.
Qed.
Lemma mtel_drawn {X} (x : list X) y e tel fm rv fm' ss : length x = length tel -> length y = length tel -> length e = length tel ->
  mtelplot x y e tel fm rv = Ok (fm', ss) -> drawn tel x y e ss.
Proof.
  intros L1 L2 L3 H. unfold mtelplot in H. destruct (for_each _ _ _) as [[[fm1 ci] out]|] eqn:E; [|discriminate]. cbn [bind] in H. injection H as <- <-.
  destruct (mtel_loop_inv _ _ _ _ _ _ _ _ E) as (kws & L & Q). cbn [snd app] in Q. subst out.
  assert (map s_tel (map (fun tk : string * fmt => mkSer (fst tk) (select tel (fst tk) x) (select tel (fst tk) y) (select tel (fst tk) e) (snd tk)) (combine (np_unique tel) kws)) = np_unique tel) as T.
  { rewrite map_map. cbn [s_tel]. clear - L. revert kws L. generalize (np_unique tel). intro l. induction l as [|a l IH]; intros [|k kws] L; try discriminate; [reflexivity|]. cbn. f_equal. apply IH. cbn in L. lia. }
  split; [rewrite T; apply np_unique_nodup|]. split; [intro; rewrite T; apply np_unique_in|].
  intros s Hs. apply in_map_iff in Hs as ([t k] & <- & _). cbn. split; [|split]; now apply select_of.
Qed.

(** ** The highlighted measurement *)
Lemma argmax_latest l : l <> [] -> exists t, latest l (argmax_r l) t.
Proof.
  induction l as [|x l IH]; [easy|]. intros _. cbn [argmax_r]. destruct (forallb (fun y => rleb y x) l) eqn:F.
  - exists x. split; [reflexivity|]. split; [|intros; lia]. rewrite forallb_forall in F. intros t [<-|Ht]; [lra|]. apply F in Ht. now apply rleb_true in Ht.
  - assert (l <> []) as N by (intros ->; discriminate). destruct (IH N) as (t & A & B & C). exists t.
    assert (x < t) as XT.
    { destruct (Rlt_or_le x t) as [|Q]; auto. exfalso. assert (forallb (fun y => rleb y x) l = true); [|congruence].
      apply forallb_forall. intros y Hy. apply rleb_true. specialize (B y Hy). lra. }
    split; [exact A|]. split.
    + intros t' [<-|Ht]; [lra|auto].
    + intros [|j] t' Hj E; [injection E as <-; auto|]. apply (C j); [lia|auto].
Qed.
Lemma argmax_shift d l : argmax_r (map (fun t => t - d) l) = argmax_r l.
Proof.
  induction l as [|x l IH]; [reflexivity|]. cbn [argmax_r map]. replace (forallb (fun y => rleb y (x - d)) (map (fun t => t - d) l)) with (forallb (fun y => rleb y x) l).
  - now rewrite IH.
  - clear. induction l as [|y l IH]; [reflexivity|]. cbn. rewrite IH. f_equal.
    destruct (rleb y x) eqn:A, (rleb (y - d) (x - d)) eqn:B; auto; apply rleb_false in A || apply rleb_false in B; apply rleb_true in A || apply rleb_true in B; lra.
Qed.
