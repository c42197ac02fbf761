(** Theorems about mtelplot (C75). *)
From Coq Require Import Reals String Ascii Arith Bool Lia Sorted List.
From Verif Require Import Py PyFacts PyFloat Timebin BintelsProofs FastBinSpec FastBinProofs RvTab RvTabSpec TelPlot TelPlotSpec TelPlotProofs.
Import ListNotations.
Open Scope string_scope.

Lemma select_of {A} tel t (l : list A) : length l = length tel -> of_tel tel t l (select tel t l).
Proof.
  intro L. split; [exact L|]. exists (filter (fun q => String.eqb (fst q) t) (combine tel l)). split; [|reflexivity].
  apply picks_filter. intro q. apply String.eqb_eq.
Qed.
Lemma suffice_count fm tel : colours_suffice fm tel <-> (count_needs fm (np_unique tel) <= length COLOURS)%nat.
Proof.
  split.
  - intros (ts & ND & I & L). eapply Nat.le_trans; [|exact L]. unfold count_needs. apply NoDup_incl_length; [apply NoDup_filter, np_unique_nodup|].
    intros t Ht. apply filter_In in Ht as [H1 H2]. apply I; [now apply np_unique_in|now apply needs_spec].
  - intro L. exists (filter (needs fm) (np_unique tel)). split; [apply NoDup_filter, np_unique_nodup|]. split; [|exact L].
    intros t H1 H2. apply filter_In. split; [now apply np_unique_in|now apply needs_spec].
Qed.

(** what [mtelplot] returns *)
Lemma mtel_main {X} (x : list X) y e tel fm rv : length x = length tel -> length y = length tel -> length e = length tel ->
  formats_wf fm -> rms_given rv tel -> colours_suffice fm tel ->
  exists fm' ss, mtelplot x y e tel fm rv = Ok (fm', ss) /\ length ss = length (np_unique tel) /\
    (forall i t, nth_error (np_unique tel) i = Some t -> exists kw, nth_error ss i = Some (mkSer t (select tel t x) (select tel t y) (select tel t e) kw) /\
       telplot_kw t (fmt_at fm (count_needs fm (firstn i (np_unique tel))) t) (rms_of rv t) = Ok kw) /\
    (forall t, ~ In t tel -> dget fm' t = dget fm t) /\
    (forall i t, nth_error (np_unique tel) i = Some t -> dget fm' t = match dget fm t with Some _ => Some (fmt_at fm (count_needs fm (firstn i (np_unique tel))) t) | None => None end).
Proof.
  intros Lx Ly Le W RG C. apply suffice_count in C.
  destruct (mtel_loop x y e tel rv (conj Lx (conj Ly Le)) (np_unique tel) fm 0 []) as (fm' & ss & E & L & A & B & D); auto; [apply np_unique_nodup| |].
  { destruct RG as [R|R]; [now left|right; intros t Ht; apply R; now apply np_unique_in]. }
  exists fm', ss. unfold mtelplot. rewrite E. cbn [bind app]. split; [reflexivity|]. split; [exact L|]. split; [exact A|]. split; [|exact D].
  intros t N. apply B. now rewrite np_unique_in.
Qed.
Lemma mtel_tels {X} (ss : list (series X)) l : length ss = length l ->
  (forall i t, nth_error l i = Some t -> exists s, nth_error ss i = Some s /\ s_tel s = t) -> map s_tel ss = l.
Proof.
  revert l. induction ss as [|s ss IH]; intros [|t l] L H; try discriminate; [reflexivity|]. cbn. f_equal.
  - destruct (H 0%nat t eq_refl) as (s' & E & Q). injection E as ->. exact Q.
  - apply IH; [cbn in L; lia|]. intros i t' E. exact (H (S i) t' E).
Qed.

Lemma mtel_points X (x : list X) y e tel fm rv : length x = length tel -> length y = length tel -> length e = length tel ->
  formats_wf fm -> rms_given rv tel -> colours_suffice fm tel ->
  exists fm' ss, mtelplot x y e tel fm rv = Ok (fm', ss) /\ NoDup (map s_tel ss) /\ (forall t, In t (map s_tel ss) <-> In t tel) /\
    forall s, In s ss -> of_tel tel (s_tel s) x (s_x s) /\ of_tel tel (s_tel s) y (s_y s) /\ of_tel tel (s_tel s) e (s_e s).
Proof.
  intros Lx Ly Le W RG C. destruct (mtel_main x y e tel fm rv Lx Ly Le W RG C) as (fm' & ss & E & L & A & _).
  assert (map s_tel ss = np_unique tel) as T. { apply mtel_tels; [exact L|]. intros i t Et. destruct (A i t Et) as (kw & Es & _). eexists. split; [exact Es|reflexivity]. }
  exists fm', ss. split; [exact E|]. split; [rewrite T; apply np_unique_nodup|]. split; [intro t; rewrite T; apply np_unique_in|].
  intros s Hs. apply In_nth_error in Hs as (i & Ei). destruct (nth_error (np_unique tel) i) as [t|] eqn:Et.
  - destruct (A i t Et) as (kw & Es & _). rewrite Ei in Es. injection Es as ->. cbn. repeat split; auto; now apply select_of.
  - apply nth_error_None in Et. assert (i < length ss)%nat by (apply nth_error_Some; congruence). lia.
Qed.
Lemma mtel_run_out X (x : list X) y e tel fm rv : length x = length tel -> length y = length tel -> length e = length tel ->
  formats_wf fm -> rms_given rv tel -> ~ colours_suffice fm tel -> mtelplot x y e tel fm rv = Err IndexError.
Proof.
  intros Lx Ly Le W RG C. rewrite suffice_count in C. unfold mtelplot.
  rewrite mtel_loop_err; auto; [apply np_unique_nodup| |cbn; lia|cbn in *; lia].
  destruct RG as [R|R]; [now left|right; intros t Ht; apply R; now apply np_unique_in].
Qed.

(** ** a series of a successful call *)
Lemma mtel_inv {X} (x : list X) y e tel fm rv fm' ss : formats_wf fm -> rms_given rv tel -> mtelplot x y e tel fm rv = Ok (fm', ss) ->
  tel <> [] -> length x = length tel /\ length y = length tel /\ length e = length tel /\ colours_suffice fm tel.
Proof.
  intros W RG E N.
  destruct (Nat.eqb (length x) (length tel) && Nat.eqb (length y) (length tel) && Nat.eqb (length e) (length tel))%bool eqn:LL.
  - apply andb_true_iff in LL as [LL L3]. apply andb_true_iff in LL as [L1 L2]. apply Nat.eqb_eq in L1, L2, L3. repeat split; auto.
    rewrite suffice_count. destruct (le_lt_dec (count_needs fm (np_unique tel)) (length COLOURS)) as [Q|Q]; [exact Q|].
    rewrite mtel_run_out in E; auto; [discriminate|]. rewrite suffice_count. lia.
  - exfalso. unfold mtelplot in E. destruct (np_unique tel) as [|t l] eqn:U.
    + destruct tel as [|t tel]; [easy|]. assert (In t (np_unique (t :: tel))) as I by (apply np_unique_in; now left). rewrite U in I. destruct I.
    + cbn [for_each] in E. unfold mtel_step at 1 in E. rewrite LL in E. discriminate E.
Qed.
(** the formats of all series *)
Lemma series_kw {X} (x : list X) y e tel fm rv fm' ss s : formats_wf fm -> rms_given rv tel -> mtelplot x y e tel fm rv = Ok (fm', ss) -> In s ss ->
  exists i, nth_error (np_unique tel) i = Some (s_tel s) /\ telplot_kw (s_tel s) (fmt_at fm (count_needs fm (firstn i (np_unique tel))) (s_tel s)) (rms_of rv (s_tel s)) = Ok (s_kw s) /\
    (count_needs fm (np_unique tel) <= length COLOURS)%nat.
Proof.
  intros W RG E Hs. assert (tel <> []) as N. { intros ->. unfold mtelplot in E. cbn in E. injection E as _ <-. destruct Hs. }
  destruct (mtel_inv x y e tel fm rv fm' ss W RG E N) as (Lx & Ly & Le & C).
  destruct (mtel_main x y e tel fm rv Lx Ly Le W RG C) as (fm2 & ss2 & E2 & L & A & _). rewrite E in E2. injection E2 as <- <-.
  apply In_nth_error in Hs as (i & Ei). destruct (nth_error (np_unique tel) i) as [t|] eqn:Et.
  - destruct (A i t Et) as (kw & Es & K). rewrite Ei in Es. injection Es as ->. cbn. exists i. split; [exact Et|]. split; [exact K|now apply suffice_count].
  - apply nth_error_None in Et. assert (i < length ss)%nat by (apply nth_error_Some; congruence). lia.
Qed.

Lemma eff_user fm j t f : dget fm t = Some f -> eff t (fmt_at fm j t) = fmt_at fm j t.
Proof.
  intro E. unfold eff, fmt_at. rewrite E. destruct (dmem f "color") eqn:C; [destruct f; [discriminate|reflexivity]|].
  destruct f as [|[a b] f]; [reflexivity|]. cbn [dset]. destruct (String.eqb "color" a); reflexivity.
Qed.
Lemma fmt_user fm j t f o : dget fm t = Some f -> (o <> "color" \/ exists c, dget f "color" = Some c) -> dget (fmt_at fm j t) o = dget f o.
Proof.
  intros E H. unfold fmt_at. rewrite E. unfold dmem. destruct (dget f "color") as [c|] eqn:C; [reflexivity|].
  destruct H as [H|[c H]]; [now apply dget_dset_other|discriminate].
Qed.
Lemma fmt_needed fm j t : needs fm t = true -> dget (eff t (fmt_at fm j t)) "color" = Some (nth j default_colors "").
Proof.
  unfold needs. destruct (dget fm t) as [f|] eqn:E.
  - rewrite (eff_user fm j t f E). unfold fmt_at. rewrite E. destruct (dmem f "color"); [discriminate|]. intros _. apply dget_dset_same.
  - unfold eff, fmt_at. rewrite E. destruct (dmem telfmts_default t) eqn:D; [discriminate|]. intros _. reflexivity.
Qed.

Lemma mtel_legend X (x : list X) y e tel fm rv fm' ss s : formats_wf fm -> rms_given rv tel -> mtelplot x y e tel fm rv = Ok (fm', ss) -> In s ss ->
  exists name note r, dget (s_kw s) "label" = Some (name ++ note) /\ legend_name fm (s_tel s) name /\ rms_note note r /\
    (rv = [] -> r = 0%R) /\ (rv <> [] -> dget rv (s_tel s) = Some r).
Proof.
  intros W RG E Hs. destruct (series_kw x y e tel fm rv fm' ss s W RG E Hs) as (i & Ei & K & _). set (t := s_tel s) in *.
  set (j := count_needs fm (firstn i (np_unique tel))) in *.
  destruct (kw_spec t (fmt_at fm j t) (rms_of rv t) (fmt_at_wf _ _ _ W)) as (kw & EK & _ & name & note & L & RN & NM). rewrite K in EK. injection EK as <-.
  exists name, note, (rms_of rv t). split; [exact L|]. split; [|split; [exact RN|split]].
  - unfold legend_name, wrote_none, wrote. destruct (dget fm t) as [f|] eqn:Ef.
    + rewrite (eff_user fm j t f Ef) in NM. rewrite (fmt_user fm j t f "label" Ef) in NM by (left; discriminate).
      destruct (dget f "label") as [v|] eqn:V; [left; exists f; subst; auto|]. right. split; [|exact NM]. intros v (f' & Q & V'). injection Q as <-. congruence.
    + right. split; [intros v (f' & Q & _); discriminate|]. unfold eff, fmt_at in NM. rewrite Ef in NM. unfold dmem in NM.
      destruct (known_table t) as [(d & n & c & Ed & Kn & Ln & _)|[Ed U]]; rewrite Ed in NM; [rewrite Ln in NM; subst; left; eauto|].
      cbn in NM. exact NM.
  - intros ->. reflexivity.
  - intro N. destruct RG as [->|R]; [easy|]. assert (In t tel) as I by (apply np_unique_in; eapply nth_error_In; eauto).
    apply R in I. apply dget_some_key in I as (r & Er). unfold rms_of. now rewrite Er.
Qed.

Lemma nth_split_count fm l : forall i k t t', nth_error l i = Some t -> nth_error l k = Some t' -> (i < k)%nat -> needs fm t = true ->
  (count_needs fm (firstn i l) < count_needs fm (firstn k l))%nat.
Proof.
  unfold count_needs. induction l as [|a l IH]; intros [|i] [|k] t t' Hi Hk L N; try discriminate; try lia; cbn in Hi, Hk.
  - injection Hi as ->. cbn [firstn filter]. rewrite N. cbn. lia.
  - cbn [firstn filter]. assert (length (filter (needs fm) (firstn i l)) < length (filter (needs fm) (firstn k l)))%nat as Q by (eapply IH; eauto; lia).
    destruct (needs fm a); cbn; lia.
Qed.
Lemma count_lt fm l : forall i t, nth_error l i = Some t -> needs fm t = true -> (count_needs fm (firstn i l) < count_needs fm l)%nat.
Proof.
  unfold count_needs. induction l as [|a l IH]; intros [|i] t Hi N; try discriminate; cbn in Hi.
  - injection Hi as ->. cbn [firstn filter]. rewrite N. cbn. lia.
  - cbn [firstn filter]. specialize (IH i t Hi N). destruct (needs fm a); cbn; lia.
Qed.

Lemma mtel_colours X (x : list X) y e tel fm rv fm' ss s : formats_wf fm -> rms_given rv tel -> mtelplot x y e tel fm rv = Ok (fm', ss) -> In s ss ->
  (forall o v, o <> "label" -> wrote fm (s_tel s) o v -> dget (s_kw s) o = Some v) /\
  (forall n c, no_format fm (s_tel s) -> known (s_tel s) n c -> dget (s_kw s) "color" = Some c) /\
  (uncoloured fm (s_tel s) -> exists c, dget (s_kw s) "color" = Some c /\ In c COLOURS /\
     forall s', In s' ss -> s_tel s' <> s_tel s -> uncoloured fm (s_tel s') -> dget (s_kw s') "color" <> Some c).
Proof.
  intros W RG E Hs. destruct (series_kw x y e tel fm rv fm' ss s W RG E Hs) as (i & Ei & K & CC).
  assert (forall j, exists kw, telplot_kw (s_tel s) (fmt_at fm j (s_tel s)) (rms_of rv (s_tel s)) = Ok kw /\
    forall o, o <> "label" -> dget kw o = match dget (eff (s_tel s) (fmt_at fm j (s_tel s))) o with Some v => Some v | None => dget KW0 o end) as KS.
  { intro j. destruct (kw_spec (s_tel s) (fmt_at fm j (s_tel s)) (rms_of rv (s_tel s)) (fmt_at_wf _ _ _ W)) as (kw & EK & O & _). eauto. }
  set (j := count_needs fm (firstn i (np_unique tel))) in *. destruct (KS j) as (kw & EK & O). rewrite K in EK. injection EK as <-.
  split; [|split].
  - intros o v No (f & Ef & Ev). rewrite O by exact No. rewrite (eff_user fm j _ f Ef). rewrite (fmt_user fm j _ f o Ef); [now rewrite Ev|].
    destruct (string_dec o "color") as [->|]; [right; eauto|now left].
  - intros n c NF Kn. rewrite O by discriminate. apply dget_none in NF. unfold eff, fmt_at. rewrite NF. unfold dmem.
    destruct (known_table (s_tel s)) as [(d & n' & c' & Ed & _ & _ & Lc & _ & U)|[_ U]]; [|exfalso; exact (U n c Kn)]. rewrite Ed. destruct (U n c Kn) as [-> ->]. now rewrite Lc.
  - intro UC. apply needs_spec in UC. pose proof (count_lt fm _ i _ Ei UC) as LT. exists (nth j default_colors ""). split; [|split].
    + rewrite O by discriminate. now rewrite fmt_needed.
    + rewrite colours_same. apply nth_In. unfold j. lia.
    + intros s' Hs' NT UC' Q. apply needs_spec in UC'. destruct (series_kw x y e tel fm rv fm' ss s' W RG E Hs') as (i' & Ei' & K' & _).
      destruct (kw_spec (s_tel s') (fmt_at fm (count_needs fm (firstn i' (np_unique tel))) (s_tel s')) (rms_of rv (s_tel s')) (fmt_at_wf _ _ _ W)) as (kw' & EK' & O' & _).
      rewrite K' in EK'. injection EK' as <-. rewrite O' in Q by discriminate. rewrite fmt_needed in Q by exact UC'. apply (f_equal (fun o => match o with Some c => c | None => "" end)) in Q. cbv beta iota in Q.
      pose proof (count_lt fm _ i' _ Ei' UC') as LT'. rewrite colours_same in Q.
      apply (proj1 (NoDup_nth COLOURS "")) in Q; [|exact colours_nodup|lia|unfold j; lia]. fold j in Q.
      destruct (lt_eq_lt_dec i i') as [[H|H]|H].
      * pose proof (nth_split_count fm _ i i' _ _ Ei Ei' H UC). unfold j in Q. lia.
      * subst i'. congruence.
      * pose proof (nth_split_count fm _ i' i _ _ Ei' Ei H UC'). unfold j in Q. lia.
Qed.

(** ** later panels *)
Lemma fm_after_settled fm j t f : dget fm t = Some f -> (exists c, dget f "color" = Some c) -> fm_after fm j t = fm.
Proof. intros E (c & Ec). unfold fm_after. rewrite E. unfold dmem. now rewrite Ec. Qed.
Lemma loop_settled {X} (x : list X) y e tel rv l : forall fm j out fm' j' out', settled fm l ->
  for_each l (mtel_step x y e tel rv) (fm, j, out) = Ok (fm', j', out') -> fm' = fm.
Proof.
  induction l as [|t l IH]; intros fm j out fm' j' out' S E; [cbn in E; congruence|].
  cbn [for_each] in E. unfold mtel_step at 1 in E. destruct (_ && _)%bool; [|discriminate].
  unfold choose_fmt in E. destruct (dget fm t) as [f|] eqn:Ef.
  - destruct (S t f (or_introl eq_refl) Ef) as (c & Ec). unfold dmem in E. rewrite Ec in E. cbn [bind] in E.
    destruct (match rv with [] => Ok 0%R | _ => dget_res rv t end); [|discriminate]. cbn [bind] in E. destruct (telplot_kw t f a); [|discriminate]. cbn [bind] in E.
    eapply IH; [|exact E]. intros t' f' H; apply S; now right.
  - assert (settled fm l) as S' by (intros t' f' H; apply S; now right).
    destruct (dmem telfmts_default t); cbn [bind] in E.
    + destruct (match rv with [] => Ok 0%R | _ => dget_res rv t end); [|discriminate]. cbn [bind] in E. destruct (telplot_kw t _ a); [|discriminate]. cbn [bind] in E. eapply IH; eauto.
    + destruct (color_at j); [|discriminate]. cbn [bind] in E.
      destruct (match rv with [] => Ok 0%R | _ => dget_res rv t end); [|discriminate]. cbn [bind] in E. destruct (telplot_kw t _ a0); [|discriminate]. cbn [bind] in E. eapply IH; eauto.
Qed.
Lemma mtel_settled {X} (x : list X) y e tel fm rv fm' ss : settled fm tel -> mtelplot x y e tel fm rv = Ok (fm', ss) -> fm' = fm.
Proof.
  intros S E. unfold mtelplot in E. destruct (for_each _ _ _) as [[[a b] c]|] eqn:F; [|discriminate]. cbn [bind] in E. injection E as <- <-.
  eapply loop_settled; [|exact F]. intros t f H; apply S; now apply np_unique_in.
Qed.

Lemma sorted_same l : forall l', StronglySorted slt l -> StronglySorted slt l' -> (forall t, In t l <-> In t l') -> l = l'.
Proof.
  induction l as [|a l IH]; intros l' S S' H.
  - destruct l' as [|b l']; [reflexivity|]. exfalso. apply (H b). now left.
  - destruct l' as [|b l']; [exfalso; apply (H a); now left|]. inversion S as [|? ? S1 F1]; inversion S' as [|? ? S2 F2]; subst. rewrite Forall_forall in F1, F2.
    assert (a = b) as ->.
    { destruct (proj1 (H a) (or_introl eq_refl)) as [Q|Q]; [now symmetry|]. destruct (proj2 (H b) (or_introl eq_refl)) as [Q'|Q']; [exact Q'|].
      exfalso. apply (slt_irrefl a). apply (slt_trans a b a); auto. }
    f_equal. apply IH; auto. intro t. split; intro I.
    + destruct (proj1 (H t) (or_intror I)) as [<-|Q]; [|exact Q]. exfalso. apply (slt_irrefl b). now apply F1.
    + destruct (proj2 (H t) (or_intror I)) as [<-|Q]; [|exact Q]. exfalso. apply (slt_irrefl b). now apply F2.
Qed.
Lemma np_unique_sorted l : StronglySorted slt (np_unique l).
Proof. unfold np_unique. induction l; cbn [fold_right]; [constructor|]. now apply s_insert_sorted. Qed.
Lemma np_unique_same l l' : (forall t, In t l <-> In t l') -> np_unique l = np_unique l'.
Proof. intro H. apply sorted_same; try apply np_unique_sorted. intro t. rewrite !np_unique_in. apply H. Qed.

(** two panels with the same instruments, the formats being those of the user *)
Lemma mtel_same_formats X Y (x : list X) y e tel (x2 : list Y) y2 e2 tel2 fm rv rv2 fm1 ss1 fm2 ss2 : formats_wf fm -> settled fm tel ->
  rms_given rv tel -> rms_given rv2 tel2 -> (forall t, In t tel <-> In t tel2) ->
  mtelplot x y e tel fm rv = Ok (fm1, ss1) -> mtelplot x2 y2 e2 tel2 fm1 rv2 = Ok (fm2, ss2) ->
  fm1 = fm /\ fm2 = fm /\ forall s1 s2 o, In s1 ss1 -> In s2 ss2 -> s_tel s1 = s_tel s2 -> o <> "label" -> dget (s_kw s1) o = dget (s_kw s2) o.
Proof.
  intros W S RG RG2 SI E1 E2. pose proof (mtel_settled x y e tel fm rv fm1 ss1 S E1) as ->.
  assert (settled fm tel2) as S2 by (intros t f H; apply S; now apply SI). pose proof (mtel_settled x2 y2 e2 tel2 fm rv2 fm2 ss2 S2 E2) as ->.
  split; [reflexivity|]. split; [reflexivity|]. intros s1 s2 o H1 H2 T No.
  destruct (series_kw x y e tel fm rv fm ss1 s1 W RG E1 H1) as (i & Ei & K & _). destruct (series_kw x2 y2 e2 tel2 fm rv2 fm ss2 s2 W RG2 E2 H2) as (i2 & Ei2 & K2 & _).
  rewrite <- (np_unique_same tel tel2 SI) in Ei2, K2. rewrite <- T in Ei2, K2.
  assert (i = i2) as <-. { apply (proj1 (NoDup_nth_error (np_unique tel)) (np_unique_nodup tel)); [apply nth_error_Some; congruence|congruence]. }
  destruct (kw_spec (s_tel s1) (fmt_at fm (count_needs fm (firstn i (np_unique tel))) (s_tel s1)) (rms_of rv (s_tel s1)) (fmt_at_wf _ _ _ W)) as (kw & EK & O & _).
  destruct (kw_spec (s_tel s1) (fmt_at fm (count_needs fm (firstn i (np_unique tel))) (s_tel s1)) (rms_of rv2 (s_tel s1)) (fmt_at_wf _ _ _ W)) as (kw2 & EK2 & O2 & _).
  rewrite K in EK. injection EK as <-. rewrite K2 in EK2. injection EK2 as <-. now rewrite O, O2.
Qed.

(** after one panel the user's formats have their colours *)
Lemma mtel_settles {X} (x : list X) y e tel fm rv fm1 ss1 : formats_wf fm -> rms_given rv tel -> mtelplot x y e tel fm rv = Ok (fm1, ss1) ->
  settled fm1 tel /\ formats_wf fm1.
Proof.
  intros W RG E. destruct tel as [|t0 tel0] eqn:ET.
  { unfold mtelplot in E. cbn in E. injection E as <- <-. split; [intros t f []|exact W]. }
  rewrite <- ET in *. assert (tel <> []) as N by (rewrite ET; discriminate). clear ET t0 tel0.
  destruct (mtel_inv x y e tel fm rv fm1 ss1 W RG E N) as (Lx & Ly & Le & C).
  destruct (mtel_main x y e tel fm rv Lx Ly Le W RG C) as (fm2 & ss2 & E2 & _ & _ & B & D). rewrite E in E2. injection E2 as <- <-.
  assert (forall t, In t tel -> exists j, dget fm1 t = match dget fm t with Some _ => Some (fmt_at fm j t) | None => None end) as Q.
  { intros t Ht. apply np_unique_in in Ht. apply In_nth_error in Ht as (i & Ei). exists (count_needs fm (firstn i (np_unique tel))). now apply D. }
  split.
  - intros t f Ht Ef. destruct (Q t Ht) as (j & Ej). rewrite Ef in Ej. destruct (dget fm t) as [g|] eqn:Eg; [|discriminate]. injection Ej as ->.
    unfold fmt_at. rewrite Eg. unfold dmem. destruct (dget g "color") as [c|] eqn:Ec; [eauto|]. rewrite dget_dset_same. eauto.
  - intros t f Ef. destruct (in_dec string_dec t tel) as [Ht|Ht]; [|rewrite B in Ef by exact Ht; eauto].
    destruct (Q t Ht) as (j & Ej). rewrite Ef in Ej. destruct (dget fm t) as [g|]; [|discriminate]. injection Ej as ->. now apply fmt_at_wf.
Qed.

(** ** an instrument changes its colour from one panel to the next *)
Definition xp_fm : dict fmt := [("spec1", [("fmt", "s")])].
Definition xp_tel : list string := ["spec1"; "spec2"].
Definition xp_kw1 : fmt := [("fmt", "s"); ("capsize", "0"); ("mew", "0"); ("ecolor", "0.6"); ("lw", "1.0"); ("color", "orange"); ("label", "spec1")].
Definition xp_kw2 (c : string) : fmt := [("fmt", "o"); ("capsize", "0"); ("mew", "0"); ("ecolor", "0.6"); ("lw", "1.0"); ("color", c); ("label", "spec2")].
Lemma xp_panel fm c : (fm = xp_fm /\ c = "purple") \/ (fm = [("spec1", [("fmt", "s"); ("color", "orange")])] /\ c = "orange") ->
  mtelplot [1%R; 2%R] [5%R; 6%R] [1%R; 1%R] xp_tel fm [] =
  Ok ([("spec1", [("fmt", "s"); ("color", "orange")])], [mkSer "spec1" [1%R] [5%R] [1%R] xp_kw1; mkSer "spec2" [2%R] [6%R] [1%R] (xp_kw2 c)]).
Proof.
  intro H. assert (reqb 0 0 = true) as R0 by now apply reqb_true. unfold mtelplot. replace (np_unique xp_tel) with ["spec1"; "spec2"] by reflexivity.
  destruct H as [[-> ->]|[-> ->]]; cbn -[reqb]; rewrite !R0; cbn -[reqb]; rewrite !R0; reflexivity.
Qed.
Lemma recoloured : exists fm tel x y e, formats_wf fm /\ exists fm1 ss1 fm2 ss2 s1 s2 s3,
  @mtelplot R x y e tel fm [] = Ok (fm1, ss1) /\ @mtelplot R x y e tel fm1 [] = Ok (fm2, ss2) /\ In s1 ss1 /\ In s2 ss2 /\ s_tel s1 = s_tel s2 /\
  dget (s_kw s1) "color" <> dget (s_kw s2) "color" /\ In s3 ss2 /\ s_tel s3 <> s_tel s2 /\ dget (s_kw s3) "color" = dget (s_kw s2) "color" /\ fm1 <> fm.
Proof.
  exists xp_fm, xp_tel, [1%R; 2%R], [5%R; 6%R], [1%R; 1%R]. split.
  { intros t f. unfold xp_fm. cbn. destruct (String.eqb t "spec1"); [|discriminate]. intro Q. injection Q as <-. unfold wf_dict. cbn. repeat constructor. auto. }
  pose proof (xp_panel xp_fm "purple" (or_introl (conj eq_refl eq_refl))) as P1. pose proof (xp_panel _ "orange" (or_intror (conj eq_refl eq_refl))) as P2.
  do 7 eexists. split; [exact P1|]. split; [exact P2|]. split; [right; left; reflexivity|]. split; [right; left; reflexivity|]. split; [reflexivity|].
  split; [cbn; discriminate|]. split; [left; reflexivity|]. split; [cbn; discriminate|]. split; [reflexivity|]. unfold xp_fm. discriminate.
Qed.

(** ** examples *)
Lemma xp_wf : formats_wf xp_fm.
Proof. intros t f. unfold xp_fm. cbn. destruct (String.eqb t "spec1"); [|discriminate]. intro Q. injection Q as <-. unfold wf_dict. cbn. repeat constructor. auto. Qed.
Lemma xp_suffice : colours_suffice xp_fm xp_tel.
Proof. exists xp_tel. split; [unfold xp_tel; repeat constructor; cbn; intuition discriminate|]. split; [auto|cbn; lia]. Qed.
Lemma xp_ten : ~ colours_suffice [] ["t0"; "t1"; "t2"; "t3"; "t4"; "t5"; "t6"; "t7"; "t8"; "t9"].
Proof. rewrite suffice_count. replace (count_needs _ _) with 10%nat by reflexivity. cbn. lia. Qed.
Lemma xp_unknown t : dget telfmts_default t = None -> unknown t.
Proof. intro E. destruct (known_table t) as [(d & n & c & Ed & _)|[_ U]]; [congruence|exact U]. Qed.
Lemma xp_legend : legend_name xp_fm "spec2" "spec2" /\ legend_name xp_fm "hires_rk" "HIRES pre 2004" /\ legend_name [("j", [("label", "J")])] "j" "J".
Proof.
  split; [|split].
  - right. split; [intros v (f & E & _); discriminate E|]. right. split; [now apply xp_unknown|reflexivity].
  - right. split; [intros v (f & E & _); discriminate E|]. left. exists "k". unfold known. cbn. tauto.
  - left. exists [("label", "J")]. split; reflexivity.
Qed.
Lemma xp_uncoloured : uncoloured xp_fm "spec1" /\ uncoloured xp_fm "spec2".
Proof. split; apply needs_spec; reflexivity. Qed.
Lemma xp_settled : settled [("spec1", [("fmt", "s"); ("color", "orange")])] xp_tel /\ forall t, In t xp_tel <-> In t (xp_tel ++ xp_tel)%list.
Proof.
  split; [|cbn; tauto]. intros t f _. cbn. destruct (String.eqb t "spec1"); [|discriminate]. intro Q. injection Q as <-. exists "orange". reflexivity.
Qed.
