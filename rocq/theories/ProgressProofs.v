(** Proofs on what is shown while sampling (C88). *)
From Coq Require Import Reals String Ascii ZArith Bool Lia Lra List Decimal DecimalString.
From Verif Require Import Py PyFloat Params Mcmc McmcSpec McmcProofs McmcThms Format Progress ProgressSpec.
Import ListNotations.
Open Scope string_scope.

(** ** The bar *)
Lemma ascii_app s t : list_ascii_of_string (s ++ t) = (list_ascii_of_string s ++ list_ascii_of_string t)%list.
Proof. induction s as [|c s IH]; [reflexivity|]. cbn [append list_ascii_of_string app]. now rewrite IH. Qed.
Lemma ascii_times c n : list_ascii_of_string (times c n) = repeat c (Z.to_nat n).
Proof. apply list_ascii_of_string_of_list_ascii. Qed.
Lemma round_div_mono a a' b : (0 < b)%Z -> (a <= a')%Z -> (round_div a b <= round_div a' b)%Z.
Proof.
  intros B L. unfold round_div. pose proof (Z.div_mod a b ltac:(lia)) as H. pose proof (Z.mod_pos_bound a b B) as H1.
  pose proof (Z.div_mod a' b ltac:(lia)) as H'. pose proof (Z.mod_pos_bound a' b B) as H1'.
  rewrite (Z.abs_eq b) by lia. set (q := (a / b)%Z) in *. set (q' := (a' / b)%Z) in *.
  assert (q <= q')%Z as Q by nia. destruct (Z.eq_dec q q') as [<-|N].
  - destruct (Z.compare_spec (2 * (a - q * b)) b); destruct (Z.compare_spec (2 * (a' - q * b)) b); try destruct (Z.even q); lia.
  - destruct (Z.compare_spec (2 * (a - q * b)) b); destruct (Z.compare_spec (2 * (a' - q' * b)) b); try destruct (Z.even q); try destruct (Z.even q'); lia.
Qed.
Lemma round_div_exact q b : (0 < b)%Z -> round_div (q * b) b = q.
Proof.
  intro B. unfold round_div. rewrite Z.div_mul by lia. replace (2 * (q * b - q * b))%Z with 0%Z by lia.
  destruct (Z.compare_spec 0 (Z.abs b)); lia.
Qed.
Lemma round_div_range a b lo hi : (0 < b)%Z -> (lo * b <= a <= hi * b)%Z -> (lo <= round_div a b <= hi)%Z.
Proof.
  intros B [L H]. split.
  - rewrite <- (round_div_exact lo b B). now apply round_div_mono.
  - rewrite <- (round_div_exact hi b B). now apply round_div_mono.
Qed.

Lemma bar_drawn step tot w : (0 < tot)%Z -> (0 <= step)%Z -> (0 <= w)%Z ->
  exists k s, progress_bar step tot w = Ok s /\ bar_of k (Z.to_nat w) s /\ Z.of_nat k = round_div (w * step) tot.
Proof.
  intros T S W. unfold progress_bar. rewrite (proj2 (Z.eqb_neq tot 0)) by lia. rewrite (proj2 (Z.ltb_ge tot 0)) by lia.
  set (q := round_div (w * step) tot).
  assert (0 <= q)%Z as Q. { rewrite <- (round_div_exact 0 tot T). apply round_div_mono; nia. }
  exists (Z.to_nat q). eexists. split; [reflexivity|]. split; [|lia].
  unfold bar_of. rewrite !ascii_app, !ascii_times. cbn [list_ascii_of_string app].
  replace (Z.to_nat w - Z.to_nat q)%nat with (Z.to_nat (w - q)) by lia. reflexivity.
Qed.
Lemma bar_unique k k' w s : bar_of k w s -> bar_of k' w s -> k = k'.
Proof.
  unfold bar_of. intros A B. rewrite A in B.
  apply (f_equal (fun l => count_occ ascii_dec l "="%char)) in B. cbn [count_occ] in B.
  destruct (ascii_dec "[" "=") as [E|_]; [discriminate|]. rewrite !count_occ_app in B.
  assert (forall n, count_occ ascii_dec (repeat "="%char n) "="%char = n) as R1.
  { induction n as [|n IH]; [reflexivity|]. cbn [repeat]. rewrite count_occ_cons_eq by reflexivity. now rewrite IH. }
  assert (forall n, count_occ ascii_dec (repeat " "%char n) "="%char = 0%nat) as R2.
  { induction n as [|n IH]; [reflexivity|]. cbn [repeat]. rewrite count_occ_cons_neq by discriminate. exact IH. }
  rewrite !R1, !R2 in B. cbn in B. lia.
Qed.
Lemma bar_length k w s : bar_of k w s -> String.length s = (2 + Nat.max k w)%nat.
Proof.
  unfold bar_of. intro H. assert (String.length s = length (list_ascii_of_string s)) as ->.
  { clear. induction s as [|c s IH]; [reflexivity|]. cbn. now rewrite IH. }
  rewrite H. cbn [length]. rewrite !app_length, !repeat_length. cbn. lia.
Qed.

Theorem bar_inside step tot w : (0 < tot)%Z -> (0 <= step <= tot)%Z -> (0 <= w)%Z ->
  exists k s, progress_bar step tot w = Ok s /\ bar_of k (Z.to_nat w) s /\ (Z.of_nat k <= w)%Z /\ String.length s = (2 + Z.to_nat w)%nat /\
    (2 * Z.abs (Z.of_nat k * tot - w * step) <= tot)%Z.
Proof.
  intros T S W. destruct (bar_drawn step tot w T ltac:(lia) W) as (k & s & A & B & E). exists k, s.
  assert (0 <= round_div (w * step) tot <= w)%Z as R by (apply round_div_range; nia).
  split; [exact A|]. split; [exact B|]. split; [lia|]. split; [rewrite (bar_length _ _ _ B); lia|]. rewrite E. now apply round_div_near.
Qed.
Theorem bar_grows a b tot w ka kb sa sb : (0 < tot)%Z -> (0 <= a <= b)%Z -> (0 <= w)%Z ->
  progress_bar a tot w = Ok sa -> progress_bar b tot w = Ok sb -> bar_of ka (Z.to_nat w) sa -> bar_of kb (Z.to_nat w) sb -> (ka <= kb)%nat.
Proof.
  intros T S W A B Ka Kb. destruct (bar_drawn a tot w T ltac:(lia) W) as (k & s & A' & B' & E). destruct (bar_drawn b tot w T ltac:(lia) W) as (k2 & s2 & A2 & B2 & E2).
  rewrite A in A'. injection A' as <-. rewrite B in A2. injection A2 as <-. rewrite (bar_unique _ _ _ _ Ka B'), (bar_unique _ _ _ _ Kb B2).
  assert (round_div (w * a) tot <= round_div (w * b) tot)%Z by (apply round_div_mono; nia). lia.
Qed.

(** ** The percentage *)
Lemma decimal_shows a b : (0 < b)%Z -> (0 <= a)%Z -> shows (one_decimal a b) (IZR a / IZR b).
Proof.
  intros B A. unfold one_decimal. set (q := round_div (10 * a) b).
  assert (0 <= q)%Z as Q. { rewrite <- (round_div_exact 0 b B). apply round_div_mono; nia. }
  pose proof (Z.div_mod q 10 ltac:(lia)) as D. pose proof (Z.mod_pos_bound q 10 ltac:(lia)) as M.
  exists (q / 10)%Z, (q mod 10)%Z. split; [apply Z.div_pos; lia|]. split; [exact M|]. split; [reflexivity|].
  rewrite <- D. pose proof (round_div_near (10 * a) b B) as N. fold q in N.
  assert (0 < IZR b)%R as BR by now apply (IZR_lt 0).
  replace (IZR q / 10 - IZR a / IZR b)%R with ((IZR (q * b - 10 * a)) / (10 * IZR b))%R by (rewrite minus_IZR, !mult_IZR; field; lra).
  unfold Rdiv. rewrite Rabs_mult, (Rabs_pos_eq (/ (10 * IZR b))) by (left; apply Rinv_0_lt_compat; lra). rewrite <- abs_IZR.
  apply IZR_le in N. rewrite mult_IZR in N.
  apply Rmult_le_reg_r with (10 * IZR b)%R; [lra|]. rewrite Rmult_assoc, Rinv_l by lra. lra.
Qed.

Section P.
Variable tr : nat -> nat -> ens -> sample * list nat.
Variable acor : list (list sample) -> list ext.
Variable g : mcfg.
Variable fmt : string -> ext -> string.
Notation round_shown := (round_shown tr acor g fmt).
Notation rounds_shown := (rounds_shown tr acor g fmt).

(** ** Showing does not change the run *)
Lemma status_ok d rt m : total g <> 0%Z -> exists l, status g fmt d rt m = Ok l.
Proof.
  intro T. destruct d; cbn [status]; [eauto|eauto|]. unfold progress_bar. rewrite (proj2 (Z.eqb_neq _ _) T). cbn [bind]. eauto.
Qed.
Lemma round_shown_split d i m m3 l : round_shown d i m = Ok (m3, l) ->
  exists m1 rt m2 msg, sample_round tr g m = Ok m1 /\ rate g i = Ok rt /\ convergence_check acor g m1 = Ok m2 /\ status g fmt d rt m2 = Ok msg /\
    burn_step g m2 = Ok m3 /\ l = (map Shown msg ++ if m_burned m3 && negb (m_burned m2) then [Printed discarding] else [])%list.
Proof.
  unfold Progress.round_shown. intro H. apply bind_ok in H as (m1 & A & H). apply bind_ok in H as (rt & B & H). apply bind_ok in H as (m2 & C & H).
  apply bind_ok in H as (msg & D & H). apply bind_ok in H as (m4 & E & H). injection H as <- <-. exists m1, rt, m2, msg. auto 8.
Qed.
Lemma round_shown_state d i m m3 l : round_shown d i m = Ok (m3, l) -> one_round tr acor g m = Ok m3.
Proof.
  intro H. destruct (round_shown_split _ _ _ _ _ H) as (m1 & rt & m2 & msg & A & B & C & D & E & _).
  unfold one_round, round_to_save. rewrite A. cbn [bind]. rewrite C. cbn [bind]. exact E.
Qed.
Lemma round_shown_ok d i m m3 : total g <> 0%Z -> i <> 0%R -> one_round tr acor g m = Ok m3 -> exists l, round_shown d i m = Ok (m3, l).
Proof.
  intros T I H. destruct (one_round_split _ _ _ _ _ H) as (m1 & m2 & A & B & C).
  unfold Progress.round_shown. rewrite A. cbn [bind]. unfold rate. unfold reqb. destruct (Req_EM_T i 0); [contradiction|]. cbn [bind]. rewrite B. cbn [bind].
  destruct (status_ok d ((INR (g_check g) - 1) * INR (nw_of g) * INR (g_ensembles g) / i)%R m2 T) as (l & ->). cbn [bind]. rewrite C. cbn [bind]. eauto.
Qed.
Theorem shown_same d clock n : forall r m m' l, rounds_shown d clock n r m = Ok (m', l) -> rounds tr acor g n m = Ok m'.
Proof.
  induction n as [|n IH]; intros r m m' l H; cbn [Progress.rounds_shown rounds] in *; [now injection H as <- <-|].
  apply bind_ok in H as ([m1 l1] & A & H). rewrite (round_shown_state _ _ _ _ _ A). cbn [bind]. destruct (Nat.leb 2 (m_mixcount m1)); [now injection H as <- <-|].
  apply bind_ok in H as ([m2 l2] & B & H). injection H as <- <-. exact (IH _ _ _ _ B).
Qed.
Theorem shown_ok d clock n : total g <> 0%Z -> (forall r, clock r <> 0%R) -> forall r m m', rounds tr acor g n m = Ok m' -> exists l, rounds_shown d clock n r m = Ok (m', l).
Proof.
  intros T CL. induction n as [|n IH]; intros r m m' H; cbn [Progress.rounds_shown rounds] in *; [injection H as <-; eauto|].
  apply bind_ok in H as (m1 & A & H). destruct (round_shown_ok d (clock r) _ _ T (CL r) A) as (l1 & ->). cbn [bind].
  destruct (Nat.leb 2 (m_mixcount m1)); [injection H as <-; eauto|]. destruct (IH (S r) _ _ H) as (l2 & ->). cbn [bind]. eauto.
Qed.

(** ** The status line of a round *)
Lemma burn_comp m m' : burn_step g m = Ok m' -> m_ncomplete m' = m_ncomplete m /\ m_ismixed m' = m_ismixed m.
Proof.
  unfold burn_step. intro H. destruct (_ && _); [|injection H as <-; auto]. apply bind_ok in H as (i & _ & H). injection H as <-. auto.
Qed.
Lemma after_next m0 r h m m' : after tr acor g m0 r h m -> one_round tr acor g m = Ok m' -> exists h', after tr acor g m0 (S r) h' m'.
Proof.
  intros H O. destruct (one_round_split _ _ _ _ _ O) as (m1 & m2 & A & B & C). destruct (skipped g m1) eqn:K.
  - exists h. eapply after_skip; eauto.
  - destruct (check_tested _ _ _ _ B K) as (s & Hc & _). exists (st_mixed s :: h). eapply after_test; eauto.
Qed.

Theorem line inits prev r h m d i m3 l : length inits = g_ensembles g -> (2 <= g_check g)%nat -> (0 < g_nrun g)%Z -> (0 < nw_of g)%nat -> (0 < g_ensembles g)%nat ->
  after tr acor g (start g inits prev) r h m -> round_shown d i m = Ok (m3, l) ->
  let made := (S r * g_check g)%nat in
  let share := (INR made / IZR (g_nrun g))%R in
  let steps pct := dec (Z.of_nat (made * nw_of g * g_ensembles g)) ++ "/" ++ dec (g_nrun g * Z.of_nat (nw_of g * g_ensembles g)) ++ " (" ++ pct ++ "%) steps complete; " in
  match d with
  | Headless => forall s, ~ In (Shown s) l
  | Notebook => exists pct rest l', l = Shown (steps pct ++ rest) :: l' /\ shows pct (100 * share)
  | Terminal => exists bar k pct rest l', l = Shown ((bar ++ " " ++ steps pct) ++ nl ++ rest) :: l' /\ shows pct (100 * share) /\
      bar_of k 50 bar /\ (Rabs (INR k - 50 * share) <= 1 / 2)%R /\ ((made <= Z.to_nat (g_nrun g))%nat -> String.length bar = 52%nat)
  end.
Proof.
  intros L C N W E A H made share steps. pose proof (round_shown_state _ _ _ _ _ H) as O. destruct (round_shown_split _ _ _ _ _ H) as (m1 & rt & m2 & msg & S1 & RT & S2 & ST & B & ->).
  destruct (after_next _ _ _ _ _ A O) as (h' & A'). destruct (after_accounting _ _ _ _ _ _ _ _ L C A') as (_ & _ & NC & _).
  specialize (NC ltac:(lia)). rewrite (proj1 (burn_comp _ _ B)) in NC. fold made in NC.
  assert (total g = g_nrun g * Z.of_nat (nw_of g * g_ensembles g))%Z as TT by (unfold total; lia).
  assert (0 < total g)%Z as TP by (rewrite TT; nia).
  assert (0 < IZR (g_nrun g))%R as NR by now apply (IZR_lt 0).
  assert (0 < INR (nw_of g * g_ensembles g))%R as WR by (apply lt_0_INR; nia).
  assert (forall c, (0 <= c)%Z -> IZR (c * Z.of_nat (m_ncomplete m2)) / IZR (total g) = IZR c * share)%R as SH.
  { intros c _. unfold share. rewrite NC, TT, !mult_IZR, <- !INR_IZR_INZ. rewrite <- Nat.mul_assoc, mult_INR. field. split; lra. }
  assert (shows (one_decimal (100 * Z.of_nat (m_ncomplete m2)) (total g)) (100 * share)) as PC.
  { rewrite <- (SH 100%Z) by lia. apply decimal_shows; lia. }
  assert (steps_text g m2 = steps (one_decimal (100 * Z.of_nat (m_ncomplete m2)) (total g))) as SE by (unfold steps_text, steps; rewrite <- TT, NC; reflexivity).
  destruct d; cbn [status] in ST.
  - injection ST as <-. cbn [map app]. intros s I. destruct (_ && _); [destruct I as [I|[]]; discriminate|destruct I].
  - injection ST as <-. rewrite SE. exists (one_decimal (100 * Z.of_nat (m_ncomplete m2)) (total g)), (rest_text g fmt "" rt m2 ++ cr). eexists. split; [reflexivity|exact PC].
  - destruct (bar_drawn (Z.of_nat (m_ncomplete m2)) (total g) 50 TP ltac:(lia) ltac:(lia)) as (k & s & BA & BO & EK).
    rewrite BA in ST. cbn [bind] in ST. injection ST as <-. rewrite SE.
    exists s, k, (one_decimal (100 * Z.of_nat (m_ncomplete m2)) (total g)), (rest_text g fmt nl rt m2 ++ nl). eexists.
    split; [reflexivity|]. split; [exact PC|]. split; [exact BO|]. split.
    + rewrite <- (SH 50%Z) by lia. pose proof (round_div_near (50 * Z.of_nat (m_ncomplete m2)) (total g) TP) as RN. rewrite <- EK in RN.
      assert (0 < IZR (total g))%R as TR by now apply (IZR_lt 0). rewrite INR_IZR_INZ.
      replace (IZR (Z.of_nat k) - IZR (50 * Z.of_nat (m_ncomplete m2)) / IZR (total g))%R
        with (IZR (Z.of_nat k * total g - 50 * Z.of_nat (m_ncomplete m2)) * / IZR (total g))%R by (rewrite minus_IZR, (mult_IZR (Z.of_nat k)); field; lra).
      rewrite Rabs_mult, (Rabs_pos_eq (/ IZR (total g))) by (left; now apply Rinv_0_lt_compat). rewrite <- abs_IZR.
      apply IZR_le in RN. rewrite mult_IZR in RN. apply Rmult_le_reg_r with (IZR (total g)); [lra|]. rewrite Rmult_assoc, Rinv_l by lra. lra.
    + intro LE. rewrite (bar_length _ _ _ BO). change (Z.to_nat 50) with 50%nat.
      assert (round_div (50 * Z.of_nat (m_ncomplete m2)) (total g) <= 50)%Z.
      { apply (round_div_range _ _ 0 50 TP). split; [lia|]. rewrite NC, TT. nia. }
      lia.
Qed.

(** the message shown last in a run that is not stopped early is beyond the total *)
Lemma beyond n : (2 <= g_check g)%nat -> num_run g = Ok n -> (Z.of_nat (g_check g) - 1 < 2 * n)%Z -> (g_nrun g < n * Z.of_nat (g_check g))%Z.
Proof. intros C N B. pose proof (num_run_near _ _ C N). nia. Qed.
End P.
