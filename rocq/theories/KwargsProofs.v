(** C48: keyword strings. *)
From Coq Require Import String Ascii ZArith Bool Lia Arith List.
From Verif Require Import Py PyFacts Mass Kwargs KwargsSpec.
Import ListNotations.
Open Scope string_scope.

Ltac chars c := destruct c as [[|] [|] [|] [|] [|] [|] [|] [|]].

Lemma sapp_nil s : (s ++ "")%string = s.
Proof. induction s; cbn; congruence. Qed.
Lemma sapp_assoc (a b c : string) : ((a ++ b) ++ c)%string = (a ++ (b ++ c))%string.
Proof. induction a; cbn; congruence. Qed.
Lemma occurs_app c a b : occurs c (a ++ b) <-> occurs c a \/ occurs c b.
Proof. induction a; cbn; tauto. Qed.

(** ** splitting *)
Lemma split_clean sep a : ~ occurs sep a -> split_on sep a = [a].
Proof.
  induction a as [|c a IH]; cbn; auto. intro H. destruct (Ascii.eqb_spec c sep); [tauto|]. rewrite IH by tauto. reflexivity.
Qed.
Lemma split_app sep a b : ~ occurs sep a -> split_on sep (a ++ String sep b) = a :: split_on sep b.
Proof.
  induction a as [|c a IH]; cbn; intro H.
  - now rewrite Ascii.eqb_refl.
  - destruct (Ascii.eqb_spec c sep); [tauto|]. rewrite IH by tauto. reflexivity.
Qed.
Lemma split_not_nil sep s : split_on sep s <> [].
Proof. destruct s as [|c s]; cbn; [discriminate|]. destruct (Ascii.eqb c sep); [discriminate|]. destruct (split_on sep s); discriminate. Qed.
Lemma split_free sep s : Forall (fun p => ~ occurs sep p) (split_on sep s).
Proof.
  induction s as [|c s IH]; cbn; [repeat constructor; auto|]. destruct (Ascii.eqb_spec c sep); [constructor; auto|].
  destruct (split_on sep s) as [|l ls]; [constructor; [cbn; tauto|constructor]|]. apply Forall_cons_iff in IH as (A & B). constructor; [cbn; tauto|auto].
Qed.
Lemma concat_cons sep a b r : String.concat sep (a :: b :: r) = a ++ sep ++ String.concat sep (b :: r).
Proof. reflexivity. Qed.
Lemma split_concat sep s : String.concat (String sep "") (split_on sep s) = s.
Proof.
  induction s as [|c s IH]; auto. cbn [split_on]. destruct (split_on sep s) as [|l ls] eqn:E; [destruct (split_not_nil sep s E)|].
  destruct (Ascii.eqb_spec c sep) as [->|N].
  - rewrite concat_cons, IH. reflexivity.
  - destruct ls; cbn in *; congruence.
Qed.
Lemma split_pieces sep l : l <> [] -> Forall (fun p => ~ occurs sep p) l -> split_on sep (String.concat (String sep "") l) = l.
Proof.
  induction l as [|a r IH]; [easy|]. intros _ F. apply Forall_cons_iff in F as (A & F). destruct r as [|b r].
  - cbn. now apply split_clean.
  - rewrite concat_cons. change ((String sep "" ++ String.concat (String sep "") (b :: r))%string) with (String sep (String.concat (String sep "") (b :: r))).
    rewrite split_app by auto. now rewrite IH.
Qed.
Lemma split_pair k v : clean k -> clean v -> split_on "=" (pair_text (k, v)) = [k; v].
Proof. intros (_ & A) (_ & B). unfold pair_text; cbn [fst snd]. cbn [append]. rewrite split_app by auto. now rewrite split_clean. Qed.

(** ** the whole string *)
Definition all_clean (l : list (string * string)) : Prop := Forall (fun kv => clean (fst kv) /\ clean (snd kv)) l.
Definition put (d : dict value) (kv : string * string) : dict value := dset d (fst kv) (cast_str_arg (snd kv)).
Lemma process_clean l : all_clean l -> forall d, for_each (map pair_text l) process_pair d = Ok (fold_left put l d).
Proof.
  induction l as [|[k v] r IH]; intros F d; [reflexivity|]. apply Forall_cons_iff in F as ((A & B) & F). cbn [map for_each fold_left].
  assert (E : process_pair d (pair_text (k, v)) = Ok (put d (k, v))) by (unfold process_pair; now rewrite split_pair).
  rewrite E. cbn [bind]. now apply IH.
Qed.
Lemma put_get l : forall d k, dget (fold_left put l d) k = match last_value l k with Some v => Some (cast_str_arg v) | None => dget d k end.
Proof.
  induction l as [|[q v] r IH]; intros d k; [reflexivity|]. cbn [fold_left last_value]. rewrite IH. unfold put; cbn [fst snd].
  destruct (last_value r k); [reflexivity|]. destruct (String.eqb_spec q k) as [->|N]; [apply dget_dset_same|]. now rewrite dget_dset_other by congruence.
Qed.
Lemma put_wf l : forall d, wf_dict d -> wf_dict (fold_left put l d).
Proof. induction l as [|kv r IH]; intros d W; cbn; auto. apply IH. now apply wf_dset. Qed.

Theorem process_format l : l <> [] -> all_clean l ->
  exists d, process_kwargs_str (Some (format l)) = Ok d /\ wf_dict d /\
    forall k, dget d k = match last_value l k with Some v => Some (cast_str_arg v) | None => None end.
Proof.
  intros N F. exists (fold_left put l []). split; [|split].
  - unfold process_kwargs_str, format. rewrite (split_pieces " ").
    + now apply process_clean.
    + destruct l; [easy|discriminate].
    + apply Forall_map. eapply Forall_impl; [|exact F]. intros [k v] (A & B). cbn in *. unfold pair_text; cbn [fst snd].
      rewrite !occurs_app. destruct A as (A1 & _), B as (B1 & _). intro H. cbn in H. intuition discriminate.
  - apply put_wf. constructor.
  - intro k. now rewrite put_get.
Qed.

Lemma process_pair_inv d p d' : ~ occurs " " p -> process_pair d p = Ok d' -> exists k v, clean k /\ clean v /\ p = pair_text (k, v).
Proof.
  unfold process_pair. intros S H. pose proof (split_free "=" p) as F. pose proof (split_concat "=" p) as C.
  destruct (split_on "=" p) as [|k [|v [|]]]; try discriminate. exists k, v.
  apply Forall_cons_iff in F as (Fk & F). apply Forall_cons_iff in F as (Fv & _).
  cbn [String.concat] in C. subst p. rewrite !occurs_app in S. repeat split; auto.
Qed.
Lemma for_each_pairs l : Forall (fun p => ~ occurs " " p) l -> forall d d', for_each l process_pair d = Ok d' -> exists kvs, all_clean kvs /\ l = map pair_text kvs.
Proof.
  induction l as [|p r IH]; intros F d d' H; [exists []; repeat constructor|]. apply Forall_cons_iff in F as (Fp & F). cbn [for_each] in H.
  destruct (process_pair d p) as [d1|e] eqn:E; [|discriminate]. cbn [bind] in H.
  destruct (process_pair_inv _ _ _ Fp E) as (k & v & A & B & ->). destruct (IH F _ _ H) as (kvs & C & ->).
  exists ((k, v) :: kvs). split; [constructor; auto|reflexivity].
Qed.
(** whatever is accepted is a formatted list *)
Theorem process_accepts s d : process_kwargs_str (Some s) = Ok d -> exists l, l <> [] /\ all_clean l /\ s = format l.
Proof.
  unfold process_kwargs_str. intro H. destruct (for_each_pairs _ (split_free " " s) _ _ H) as (l & A & E). exists l. split; [|split; [exact A|]].
  - intros ->. exact (split_not_nil " " s E).
  - unfold format. rewrite <- E. symmetry. apply split_concat.
Qed.
(** everything else raises ValueError *)
Lemma for_each_err l : forall d e, for_each l process_pair d = Err e -> e = ValueError.
Proof.
  induction l as [|p r IH]; intros d e H; [discriminate|]. cbn [for_each] in H. unfold process_pair in H at 1.
  destruct (split_on "=" p) as [|k [|v [|]]]; cbn [bind] in H; try (inversion H; reflexivity). eauto.
Qed.
Theorem process_refuses s : (forall l, l <> [] -> all_clean l -> s <> format l) -> process_kwargs_str (Some s) = Err ValueError.
Proof.
  intro N. destruct (process_kwargs_str (Some s)) as [d|e] eqn:E.
  - destruct (process_accepts _ _ E) as (l & A & B & C). destruct (N l A B C).
  - f_equal. exact (for_each_err _ _ _ E).
Qed.

(** ** digits *)
Lemma digit_spec c d : digit c = Some d <-> digit_is c d.
Proof.
  unfold digit_is. split.
  - chars c; cbn; intro H; try discriminate; inversion H; tauto.
  - cbn. intros H. repeat (destruct H as [H|H]; [inversion H; reflexivity|]). destruct H.
Qed.
Lemma digit_none c : digit c = None <-> forall d, ~ digit_is c d.
Proof.
  split.
  - intros H d D. apply digit_spec in D. congruence.
  - intro H. destruct (digit c) as [d|] eqn:E; [|reflexivity]. apply digit_spec in E. destruct (H d E).
Qed.
Lemma is_digit_spec c : is_digit c = true <-> exists d, digit_is c d.
Proof.
  unfold is_digit. destruct (digit c) as [d|] eqn:E.
  - apply digit_spec in E. split; eauto.
  - split; [discriminate|]. intros (d & D). apply digit_spec in D. congruence.
Qed.
Lemma digit_not c d : digit_is c d -> c <> "_"%char /\ c_space c = false /\ c <> "-"%char /\ c <> "+"%char.
Proof.
  intro H. apply digit_spec in H. repeat split; [intros -> | |intros -> |intros ->]; try discriminate.
  chars c; try discriminate; reflexivity.
Qed.
Lemma places_fold l : forall a, fold_left (fun a d => 10 * a + d)%Z l a = (a * 10 ^ Z.of_nat (length l) + places l)%Z.
Proof.
  induction l as [|d r IH]; intro a; cbn [fold_left places length].
  - cbn. lia.
  - rewrite IH, Nat2Z.inj_succ, Z.pow_succ_r by lia. ring.
Qed.
Lemma value_places l : value_of l = places l.
Proof. unfold value_of. rewrite places_fold. lia. Qed.

(** ** blanks *)
Fixpoint nb (s : string) : Prop := match s with "" => True | String c r => c_space c = false /\ nb r end.
Lemma c_space_spec c : c_space c = true <-> In (nat_of_ascii c) [9; 10; 11; 12; 13; 32]%nat.
Proof.
  split.
  - chars c; cbn; intro H; try discriminate; tauto.
  - chars c; cbn; intro H; try reflexivity; repeat (destruct H as [H|H]; [discriminate|]); destruct H.
Qed.
Lemma blank_cons c w : blank (String c w) <-> c_space c = true /\ blank w.
Proof.
  unfold blank. split.
  - intro H. split; [apply c_space_spec, H; now left|]. intros a A. apply H. now right.
  - intros (A & B) a [->|H]; [now apply c_space_spec|auto].
Qed.
Lemma drop_blank w s : blank w -> drop_space (w ++ s) = drop_space s.
Proof. induction w as [|c w IH]; cbn; auto. intro H. apply blank_cons in H as (A & B). rewrite A. auto. Qed.
Lemma drop_end_blank w : blank w -> drop_space_end w = "".
Proof. induction w as [|c w IH]; cbn; auto. intro H. apply blank_cons in H as (A & B). now rewrite IH, A. Qed.
Lemma drop_end_app a w : blank w -> nb a -> drop_space_end (a ++ w) = a.
Proof.
  intro W. induction a as [|c a IH]; cbn; [intros _; now apply drop_end_blank|]. intros (A & B). rewrite IH by auto. destruct a; [now rewrite A|reflexivity].
Qed.
Lemma trim_core w1 a w2 : blank w1 -> blank w2 -> nb a -> trim (w1 ++ a ++ w2) = a.
Proof.
  intros W1 W2 A. unfold trim. rewrite drop_blank by auto. destruct a as [|c a].
  - cbn [append]. enough (E : drop_space w2 = "") by now rewrite E. rewrite <- (sapp_nil w2). now rewrite drop_blank.
  - cbn [append drop_space]. destruct A as (A & B). rewrite A. change (String c (a ++ w2)) with (String c a ++ w2). apply drop_end_app; [auto|split; auto].
Qed.
Lemma drop_space_split s : exists w, blank w /\ s = w ++ drop_space s.
Proof.
  induction s as [|c s (w & W & E)]; [exists ""; split; [intros c []|reflexivity]|]. cbn. destruct (c_space c) eqn:C.
  - exists (String c w). split; [now apply blank_cons|]. cbn. now rewrite <- E.
  - exists "". split; [intros a []|reflexivity].
Qed.
Lemma drop_end_split s : exists w, blank w /\ s = drop_space_end s ++ w.
Proof.
  induction s as [|c s (w & W & E)]; [exists ""; split; [intros c []|reflexivity]|]. cbn. destruct (drop_space_end s) as [|a t] eqn:D.
  - cbn in E. subst w. destruct (c_space c) eqn:C.
    + exists (String c s). split; [now apply blank_cons|reflexivity].
    + exists s. split; auto.
  - exists w. split; [auto|]. cbn in *. now rewrite E.
Qed.
Lemma trim_split s : exists w1 w2, blank w1 /\ blank w2 /\ s = w1 ++ trim s ++ w2.
Proof.
  destruct (drop_space_split s) as (w1 & W1 & E1). destruct (drop_end_split (drop_space s)) as (w2 & W2 & E2).
  exists w1, w2. repeat split; auto. unfold trim. now rewrite <- E2.
Qed.

(** ** signs *)
Lemma sign_inv s neg t : sign s = (neg, t) -> exists sg, s = sg ++ t /\ signed sg neg.
Proof.
  unfold signed. destruct s as [|c r]; cbn.
  - intro H; inversion H; subst. exists "". auto.
  - destruct (Ascii.eqb_spec c "-") as [->|]; [intro H; inversion H; subst; exists "-"; auto|].
    destruct (Ascii.eqb_spec c "+") as [->|]; [intro H; inversion H; subst; exists "+"; auto|].
    intro H; inversion H; subst. exists "". auto.
Qed.
Definition nosign (s : string) : Prop := match s with String c _ => c <> "-"%char /\ c <> "+"%char | "" => True end.
Lemma sign_app sg neg t : signed sg neg -> nosign t -> sign (sg ++ t) = (neg, t).
Proof.
  intros [(-> & ->)|([->| ->] & ->)] N; try reflexivity. destruct t as [|c t]; [reflexivity|]. destruct N as (A & B). cbn.
  destruct (Ascii.eqb_spec c "-"); [easy|]. destruct (Ascii.eqb_spec c "+"); easy.
Qed.
Lemma nb_signed sg neg : signed sg neg -> nb sg.
Proof. intros [(-> & _)|([->| ->] & _)]; cbn; auto. Qed.
Lemma nb_app a b : nb (a ++ b) <-> nb a /\ nb b.
Proof. induction a; cbn; tauto. Qed.

(** ** int *)
Lemma int_lit_inv s l : int_lit s l -> exists c d r, s = String c r /\ digit_is c d /\
  ((r = "" /\ l = [d]) \/ (exists l', int_lit r l' /\ l = d :: l') \/ (exists r' l', r = String "_" r' /\ int_lit r' l' /\ l = d :: l')).
Proof.
  intros [c d D|c d r l' D I|c d r l' D I].
  - exists c, d, "". eauto 10.
  - exists c, d, r. eauto 10.
  - exists c, d, (String "_" r). eauto 12.
Qed.
Lemma digit_bar : digit "_" = None. Proof. reflexivity. Qed.
Lemma pow_cons d (l : list Z) (acc : Z) : (acc * 10 ^ Z.of_nat (length (d :: l)) + places (d :: l) = (10 * acc + d) * 10 ^ Z.of_nat (length l) + places l)%Z.
Proof. cbn [places length]. rewrite Nat2Z.inj_succ, Z.pow_succ_r by lia. ring. Qed.
Lemma int_body_spec s : forall acc n,
  (int_body acc false s = Some n <-> exists l, int_lit s l /\ n = (acc * 10 ^ Z.of_nat (length l) + places l)%Z) /\
  (int_body acc true s = Some n <-> (s = "" /\ n = acc) \/ (exists l, int_lit s l /\ n = (acc * 10 ^ Z.of_nat (length l) + places l)%Z) \/
    (exists r l, s = String "_" r /\ int_lit r l /\ n = (acc * 10 ^ Z.of_nat (length l) + places l)%Z)).
Proof.
  induction s as [|c s IH]; intros acc n.
  - cbn. split.
    + split; [discriminate|]. intros (l & I & _). apply int_lit_inv in I as (c & d & r & E & _). discriminate.
    + split; [intro H; inversion H; auto|]. intros [(_ & ->)|[(l & I & _)|(r & l & E & _)]]; [reflexivity| |discriminate].
      apply int_lit_inv in I as (c & d & r & E & _). discriminate.
  - cbn [int_body]. destruct (digit c) as [d|] eqn:D.
    + assert (D' := D). apply digit_spec in D'. destruct (IH (10 * acc + d)%Z n) as (_ & B).
      assert (Q : (int_body (10 * acc + d) true s = Some n <-> exists l, int_lit (String c s) l /\ n = (acc * 10 ^ Z.of_nat (length l) + places l)%Z)).
      { rewrite B. split.
        - intros [(-> & ->)|[(l & I & ->)|(r & l & -> & I & ->)]].
          + exists [d]. split; [now constructor|]. rewrite pow_cons. cbn [length places Z.of_nat]. rewrite Z.pow_0_r. ring.
          + exists (d :: l). split; [now constructor|]. now rewrite pow_cons.
          + exists (d :: l). split; [now constructor|]. now rewrite pow_cons.
        - intros (l & I & ->). apply int_lit_inv in I as (c' & d' & r & E & Dd & R). inversion E; subst c' r.
          apply digit_spec in Dd. rewrite D in Dd. inversion Dd; subst d'.
          destruct R as [(-> & ->)|[(l' & I & ->)|(r' & l' & -> & I & ->)]].
          + left. split; [reflexivity|]. rewrite pow_cons. cbn [length places Z.of_nat]. rewrite Z.pow_0_r. ring.
          + right; left. exists l'. split; [auto|]. now rewrite pow_cons.
          + right; right. exists r', l'. split; [auto|]. split; [auto|]. now rewrite pow_cons. }
      split; [exact Q|]. rewrite Q. split; [intros (l & H); right; left; eauto|].
      intros [(E & _)|[H|(r & l & E & _)]]; [discriminate|exact H|]. inversion E; subst c. rewrite digit_bar in D. discriminate.
    + rewrite digit_none in D.
      assert (NL : forall l, ~ int_lit (String c s) l).
      { intros l I. apply int_lit_inv in I as (c' & d' & r & E & Dd & _). inversion E; subst. exact (D _ Dd). }
      rewrite andb_false_r, andb_true_r. split.
      * split; [discriminate|]. intros (l & I & _). destruct (NL l I).
      * destruct (Ascii.eqb_spec c "_") as [->|N].
        -- destruct (IH acc n) as (A & _). rewrite A. split.
           ++ intros (l & I & ->). right; right. eauto.
           ++ intros [(E & _)|[(l & I & _)|(r & l & E & I & ->)]]; [discriminate|destruct (NL l I)|]. inversion E; subst. eauto.
        -- split; [discriminate|]. intros [(E & _)|[(l & I & _)|(r & l & E & _)]]; [discriminate|destruct (NL l I)|]. inversion E; congruence.
Qed.
Lemma int_lit_nb s l : int_lit s l -> nb s /\ nosign s.
Proof.
  intro H. split.
  - induction H; cbn; repeat split; auto; try (now apply digit_not in H).
  - apply int_lit_inv in H as (c & d & r & -> & D & _). cbn. apply digit_not in D. tauto.
Qed.
Theorem int_of_spec s z : int_of s = Some z <-> int_text s z.
Proof.
  unfold int_of, int_text. split.
  - destruct (sign (trim s)) as [neg r] eqn:S. destruct (int_body 0 false r) as [n|] eqn:B; [|discriminate]. intro H. inversion H; subst z.
    apply (int_body_spec r 0 n) in B as (l & I & ->). destruct (trim_split s) as (w1 & w2 & W1 & W2 & E). apply sign_inv in S as (sg & S & G).
    exists w1, sg, neg, r, l, w2. rewrite <- S. rewrite Z.mul_0_l, Z.add_0_l. auto 8.
  - intros (w1 & sg & neg & body & l & w2 & -> & W1 & W2 & G & I & ->). destruct (int_lit_nb _ _ I) as (N1 & N2).
    rewrite trim_core; auto; [|apply nb_app; split; [eapply nb_signed; eauto|auto]].
    rewrite (sign_app sg neg) by auto. assert (B : int_body 0 false body = Some (places l)).
    { apply (int_body_spec body 0). exists l. split; [auto|]. now rewrite Z.mul_0_l, Z.add_0_l. }
    rewrite B. reflexivity.
Qed.

(** ** float *)
Definition nodigit (s : string) : Prop := match s with String c _ => digit c = None | "" => True end.
Lemma span_inv s l t : span s = (l, t) -> exists p, digits p l /\ s = p ++ t /\ nodigit t.
Proof.
  revert l t. induction s as [|c s IH]; cbn; intros l t H.
  - inversion H; subst. exists "". repeat split; constructor.
  - destruct (digit c) as [d|] eqn:D.
    + destruct (span s) as [l' t'] eqn:E. inversion H; subst. destruct (IH _ _ eq_refl) as (p & P & -> & N).
      exists (String c p). split; [constructor; [now apply digit_spec|auto]|]. auto.
    + inversion H; subst. exists "". split; [constructor|]. split; [reflexivity|]. exact D.
Qed.
Lemma span_app p l t : digits p l -> nodigit t -> span (p ++ t) = (l, t).
Proof.
  intros H N. induction H as [|c d s l D H IH]; cbn.
  - destruct t as [|c t]; cbn; [reflexivity|]. cbn in N. now rewrite N.
  - apply digit_spec in D. rewrite D, IH. reflexivity.
Qed.
Lemma span_all p l : digits p l -> span p = (l, "").
Proof. intro H. rewrite <- (sapp_nil p). apply span_app; cbn; auto. Qed.

Lemma exponent_spec s e : exponent s = Some e <-> expo s e.
Proof.
  unfold exponent, expo. split.
  - destruct s as [|c r]; [intro H; inversion H; auto|]. destruct (Ascii.eqb_spec (lower_char c) "e") as [C|]; [|discriminate].
    destruct (sign r) as [neg t] eqn:S. destruct (span t) as [l u] eqn:P. destruct l as [|d l]; [discriminate|]. destruct u; [|discriminate].
    intro H. inversion H. apply sign_inv in S as (sg & -> & G). apply span_inv in P as (p & D & E & _). rewrite sapp_nil in E. subst t.
    right. exists c, sg, neg, p, (d :: l). split; [clear -C; chars c; try discriminate; auto|]. repeat split; auto; [discriminate|].
    rewrite value_places. reflexivity.
  - intros [(-> & ->)|(c & sg & neg & p & l & C & -> & G & D & N & ->)]; [reflexivity|].
    assert (C' : lower_char c = "e"%char) by (destruct C; subst; reflexivity). rewrite C', Ascii.eqb_refl.
    rewrite (sign_app sg neg); auto.
    + rewrite (span_all _ _ D). destruct l; [easy|]. rewrite value_places. reflexivity.
    + destruct D as [|c' d s l' D' _]; cbn; auto. apply digit_not in D'. tauto.
Qed.
Lemma expo_nodigit s e : expo s e -> nodigit s /\ forall b, s = String "." b -> False.
Proof.
  intros [(-> & _)|(c & sg & neg & p & l & C & -> & _)]; cbn; [split; auto; discriminate|]. destruct C; subst; split; try reflexivity; intros b H; discriminate.
Qed.
Lemma digits_nb p l : digits p l -> nb p.
Proof. induction 1; cbn; auto. split; auto. now apply digit_not in H. Qed.
Lemma expo_nb s e : expo s e -> nb s.
Proof.
  intros [(-> & _)|(c & sg & neg & p & l & C & -> & G & D & _)]; cbn; auto. split; [destruct C; subst; reflexivity|].
  apply nb_app. split; [eapply nb_signed; eauto|eapply digits_nb; eauto].
Qed.
Lemma frac_nb f b : frac f b -> nb f.
Proof. intros [(-> & _)|(p & -> & D)]; cbn; auto. split; auto. eapply digits_nb; eauto. Qed.

Definition dec_body (t : string) : option (Z * Z) :=
  let (a, r) := span t in
  let (b, r) := fraction r in
  match (a ++ b)%list with
  | [] => None
  | l => match exponent r with Some e => Some (value_of l, (e - Z.of_nat (length b))%Z) | None => None end
  end.
Lemma dec_body_spec t m e : dec_body t = Some (m, e) <-> decimal t m e.
Proof.
  unfold dec_body, decimal. split.
  - destruct (span t) as [a r] eqn:A. destruct (fraction r) as [b r2] eqn:F. apply span_inv in A as (p & D & -> & N).
    assert (Q : exists f, frac f b /\ r = f ++ r2).
    { unfold fraction in F. unfold frac. destruct r as [|c r]; [inversion F; exists ""; auto|]. destruct (Ascii.eqb_spec c ".") as [->|].
      - apply span_inv in F as (q & Dq & -> & _). exists (String "." q). split; [right; eauto|reflexivity].
      - inversion F; subst. exists "". auto. }
    destruct Q as (f & Ff & ->). destruct (a ++ b)%list as [|x l] eqn:AB; [discriminate|]. destruct (exponent r2) as [ex|] eqn:X; [|discriminate].
    intro H. inversion H; subst. apply exponent_spec in X. exists p, f, r2, a, b, ex. rewrite AB, value_places. repeat split; auto. discriminate.
  - intros (p & f & x & a & b & ex & -> & D & F & N & X & -> & ->). destruct (expo_nodigit _ _ X) as (X1 & X2).
    assert (F' : nodigit (f ++ x) /\ fraction (f ++ x) = (b, x)).
    { destruct F as [(-> & ->)|(q & -> & Dq)]; cbn.
      - split; [exact X1|]. unfold fraction. destruct x as [|c x]; [reflexivity|]. destruct (Ascii.eqb_spec c ".") as [->|]; [destruct (X2 x eq_refl)|reflexivity].
      - split; [reflexivity|]. now apply span_app. }
    destruct F' as (F1 & F2). rewrite (span_app p a) by auto. rewrite F2. apply exponent_spec in X. rewrite X.
    destruct (a ++ b)%list; [easy|]. now rewrite value_places.
Qed.
Lemma lower_length s : forall t, lower s = t -> String.length s = String.length t.
Proof. induction s as [|c s IH]; intros t <-; cbn; auto. Qed.
Lemma decimal_head t m e : decimal t m e -> exists c r, t = String c r /\ (is_digit c = true \/ c = "."%char).
Proof.
  intros (p & f & x & a & b & ex & -> & D & F & N & _). destruct D as [|c d s l D' D].
  - destruct F as [(-> & ->)|(q & -> & Dq)]; [easy|]. cbn. eauto.
  - cbn. exists c. eexists. split; [reflexivity|]. left. apply is_digit_spec. eauto.
Qed.
Theorem float_body_spec s x : float_body s = Some x <-> float_lit s x.
Proof.
  unfold float_body, float_lit. split.
  - destruct (sign s) as [neg t] eqn:S. apply sign_inv in S as (sg & -> & G). intro H. exists sg, neg, t. split; [auto|]. split; [auto|].
    destruct (String.eqb_spec (lower t) "inf"); [left; inversion H; auto|]. destruct (String.eqb_spec (lower t) "infinity"); [left; inversion H; auto|].
    cbn [orb] in H. destruct (String.eqb_spec (lower t) "nan"); [right; left; inversion H; auto|]. right; right.
    pose proof (dec_body_spec t) as Q. unfold dec_body in Q. destruct (span t) as [a r]. destruct (fraction r) as [b r2].
    destruct (a ++ b)%list as [|y l]; [discriminate|]. destruct (exponent r2) as [ex|]; [|discriminate]. inversion H; subst.
    eexists; eexists. split; [|reflexivity]. now apply Q.
  - intros (sg & neg & t & -> & G & R).
    assert (NS : nosign t).
    { destruct R as [([E|E] & _)|[(E & _)|(m & e & D & _)]].
      1,2,3: destruct t as [|c t]; cbn; auto; cbn in E; injection E as E _; split; intros ->; discriminate.
      apply decimal_head in D as (c & r & -> & [D| ->]); cbn; [|split; discriminate]. apply is_digit_spec in D as (d & D). apply digit_not in D. tauto. }
    rewrite (sign_app sg neg) by auto. destruct R as [([E|E] & ->)|[(E & ->)|(m & e & D & ->)]].
    1,2,3: now rewrite E.
    assert (H : forall w, In w ["inf"; "infinity"; "nan"] -> String.eqb (lower t) w = false).
    { intros w W. apply String.eqb_neq. intro E. apply decimal_head in D as (c & r & -> & D). cbn [lower] in E.
      destruct W as [<-|[<-|[<-|[]]]]; injection E as E _; (destruct D as [D| ->]; [|discriminate]); clear -D E; chars c; discriminate. }
    rewrite !H by (cbn; tauto). cbn [orb]. apply dec_body_spec in D. unfold dec_body in D. destruct (span t) as [a r]. destruct (fraction r) as [b r2].
    destruct (a ++ b)%list as [|y l]; [discriminate|]. destruct (exponent r2); [|discriminate]. inversion D; subst. reflexivity.
Qed.
Lemma lower_nb t : nb (lower t) -> nb t.
Proof. induction t as [|c t IH]; cbn; auto. intros (A & B). split; auto. clear -A. chars c; vm_compute in A |- *; congruence. Qed.
Lemma float_lit_nb s x : float_lit s x -> nb s.
Proof.
  intros (sg & neg & t & -> & G & R). apply nb_app. split; [eapply nb_signed; eauto|].
  destruct R as [([E|E] & _)|[(E & _)|(m & e & D & _)]]; try (apply lower_nb; rewrite E; cbn; tauto).
  destruct D as (p & f & y & a & b & ex & -> & D & F & N & X & _). rewrite !nb_app. split; [|split].
  - eapply digits_nb; eauto.
  - eapply frac_nb; eauto.
  - eapply expo_nb; eauto.
Qed.
Lemma under_nb s t : under s t -> nb t -> nb s.
Proof.
  induction 1 as [|c s t N U IH|c d a b s t A B U IH]; auto.
  - cbn. tauto.
  - intros (E & H). cbn in IH, H. cbn. split; [auto|]. split; [reflexivity|]. apply IH. auto.
Qed.

Definition after (prev : ascii) (s t : string) : Prop :=
  under s t \/ exists a d b r u, digit_is prev a /\ digit_is d b /\ s = String "_" (String d r) /\ t = String d u /\ under (String d r) (String d u).
Lemma under_cons c s t : c <> "_"%char -> (under (String c s) (String c t) <-> after c s t).
Proof.
  intro N. split.
  - intro H. inversion H as [|c' s' t' N' U'|c' d a b s' t' A B U']; subst; [left; auto|]. right. exists a, d, b, s', t'. auto.
  - intros [H|(a & d & b & r & u & A & B & -> & -> & H)]; [now constructor|]. eapply un_bar; eauto.
Qed.
Lemma under_head s c t : under s (String c t) -> exists r, s = String c r.
Proof. intro H. inversion H; subst; eauto. Qed.
Lemma under_head' s c t : under (String c s) t -> exists r, t = String c r /\ c <> "_"%char.
Proof.
  intro H. inversion H as [|c' s' t' N' U'|c' d a b s' t' A B U']; subst; [eauto|]. apply digit_not in A. exists (String d t'). tauto.
Qed.
Lemma drop_spec n : forall s prev t, (String.length s <= n)%nat -> prev <> "_"%char -> (drop_underscores prev s = Some t <-> after prev s t).
Proof.
  induction n as [|n IH]; intros s prev t L P.
  - destruct s; [|cbn in L; lia]. cbn. destruct (Ascii.eqb_spec prev "_"); [easy|]. split.
    + intro H; inversion H. left. constructor.
    + intros [H|(a & d & b & r & u & _ & _ & E & _)]; [inversion H; reflexivity|discriminate].
  - destruct s as [|c s]; [apply IH; cbn; [lia|auto]|]. cbn in L. cbn [drop_underscores]. destruct (Ascii.eqb_spec c "_") as [->|C].
    + destruct (is_digit prev) eqn:Dp.
      * apply is_digit_spec in Dp as (a & Dp). destruct s as [|d r]; cbn [drop_underscores].
        -- split; [discriminate|]. intros [H|(a' & d & b & r & u & _ & _ & E & _)]; [|discriminate]. apply under_head' in H as (? & _ & H). easy.
        -- destruct (Ascii.eqb_spec d "_") as [->|Nd]; cbn [andb].
           { split; [discriminate|]. intros [H|(a' & d & b & r' & u & _ & B & E & _)].
             - apply under_head' in H as (? & _ & H). easy.
             - inversion E; subst d. apply digit_not in B. tauto. }
           replace (Ascii.eqb "_" "_") with true by reflexivity. cbn [andb]. destruct (is_digit d) eqn:Dd; cbn [negb].
           ++ apply is_digit_spec in Dd as (b & Dd). cbn in L. pose proof (fun u => IH r d u ltac:(lia) Nd) as Q.
              destruct (drop_underscores d r) as [u|] eqn:E.
              ** assert (U : under (String d r) (String d u)) by (apply under_cons; [auto|]; now apply Q).
                 split.
                 --- intro H; inversion H; subst. right. exists a, d, b, r, u. auto.
                 --- intros [H|(a' & d' & b' & r' & u' & _ & _ & E1 & -> & U')]; [apply under_head' in H as (? & _ & H); easy|].
                     inversion E1; subst d' r'. apply under_cons in U'; [|auto]. apply Q in U'. inversion U'. reflexivity.
              ** split; [discriminate|]. intros [H|(a' & d' & b' & r' & u' & _ & _ & E1 & -> & U')]; [apply under_head' in H as (? & _ & H); easy|].
                 inversion E1; subst d' r'. apply under_cons in U'; [|auto]. apply Q in U'. discriminate.
           ++ split; [discriminate|]. intros [H|(a' & d' & b' & r' & u' & _ & B & E1 & _)]; [apply under_head' in H as (? & _ & H); easy|].
              inversion E1; subst d'. assert (is_digit d = true) by (apply is_digit_spec; eauto). congruence.
      * split; [discriminate|]. intros [H|(a & d & b & r & u & A & _)]; [apply under_head' in H as (? & _ & H); easy|].
        assert (is_digit prev = true) by (apply is_digit_spec; eauto). congruence.
    + destruct (Ascii.eqb_spec prev "_"); [easy|]. cbn [andb]. pose proof (fun u => IH s c u ltac:(lia) C) as Q. split.
      * destruct (drop_underscores c s) as [u|] eqn:E; [|discriminate]. intro H; inversion H; subst. left. apply under_cons; auto. now apply Q.
      * intros [H|(a & d & b & r & u & _ & _ & E & _)]; [|inversion E; congruence].
        pose proof (under_head' _ _ _ H) as (u & -> & _). apply under_cons in H; auto. apply Q in H. now rewrite H.
Qed.
Lemma drop_under s t : drop_underscores " " s = Some t <-> under s t.
Proof.
  rewrite (drop_spec (String.length s) s " " t) by (auto; discriminate). split; [|left; auto].
  intros [H|(a & d & b & r & u & A & _)]; [auto|]. apply digit_spec in A. discriminate.
Qed.
Theorem float_of_spec s x : float_of s = Some x <-> float_text s x.
Proof.
  unfold float_of, float_text. split.
  - destruct (drop_underscores " " (trim s)) as [t|] eqn:E; [|discriminate]. intro H. apply drop_under in E. apply float_body_spec in H.
    destruct (trim_split s) as (w1 & w2 & W1 & W2 & Es). exists w1, (trim s), t, w2. auto.
  - intros (w1 & u & t & w2 & -> & W1 & W2 & U & F). rewrite trim_core; auto; [|eapply under_nb; [eauto|]; eapply float_lit_nb; eauto].
    apply drop_under in U. rewrite U. now apply float_body_spec.
Qed.

(** ** types of values *)
Theorem cast_spec s v : cast_str_arg s = v <->
  match v with
  | VInt z => int_text s z
  | VFloat x => (forall z, ~ int_text s z) /\ float_text s x
  | VBool b => (forall z, ~ int_text s z) /\ (forall x, ~ float_text s x) /\ lower s = (if b then "true" else "false")
  | VStr t => t = s /\ (forall z, ~ int_text s z) /\ (forall x, ~ float_text s x) /\ lower s <> "true" /\ lower s <> "false"
  end.
Proof.
  assert (I : (forall z, ~ int_text s z) <-> int_of s = None).
  { split; [intro H; destruct (int_of s) as [z|] eqn:E; [apply int_of_spec in E; destruct (H z E)|reflexivity]|].
    intros E z H. apply int_of_spec in H. congruence. }
  assert (F : (forall x, ~ float_text s x) <-> float_of s = None).
  { split; [intro H; destruct (float_of s) as [z|] eqn:E; [apply float_of_spec in E; destruct (H z E)|reflexivity]|].
    intros E z H. apply float_of_spec in H. congruence. }
  unfold cast_str_arg. destruct v as [z|x|b|t]; rewrite <- ?int_of_spec, <- ?float_of_spec, ?I, ?F;
    (destruct (int_of s) as [z'|]; [now intuition congruence|]);
    (destruct (float_of s) as [x'|]; [now intuition congruence|]);
    destruct (String.eqb_spec (lower s) "true") as [E1|N1]; try (destruct (String.eqb_spec (lower s) "false") as [E2|N2]);
    try destruct b; now intuition congruence.
Qed.
