(** Proofs about mtelplot (C75). *)
From Coq Require Import Reals String Ascii Arith Bool Lia Sorted List.
From Verif Require Import Py PyFacts PyFloat Timebin BintelsProofs FastBinSpec FastBinProofs RvTab RvTabSpec RvTabProofs TelPlot TelPlotSpec.
Import ListNotations.
Open Scope string_scope.

(** ** the tables *)
Lemma known_table t : (exists d n c, dget telfmts_default t = Some d /\ known t n c /\ dget d "label" = Some n /\ dget d "color" = Some c /\ wf_dict d /\
    (forall n' c', known t n' c' -> n' = n /\ c' = c)) \/ (dget telfmts_default t = None /\ unknown t).
Proof.
  destruct (dget telfmts_default t) as [d|] eqn:E.
  - left. pose proof (dget_in _ _ _ E) as I.
    assert (forall (a : string) (x : fmt), (a, x) = (t, d) -> a = t /\ x = d) as J by (intros a x Q; now inversion Q).
    unfold known. cbn in I. repeat (destruct I as [I|I]; [apply J in I as [<- <-]; eexists; eexists; eexists; split; [reflexivity|]; split; [cbn; tauto|];
      split; [reflexivity|]; split; [reflexivity|]; split; [unfold wf_dict; cbn; repeat constructor; cbn; intuition discriminate|];
      intros n' c' K; cbn in K; repeat (destruct K as [K|K]; [try discriminate K; inversion K; auto|]); contradiction|]). contradiction.
  - right. split; [reflexivity|]. intros n c K. apply dget_none in E. apply E. unfold known in K. cbn in K.
    repeat (destruct K as [K|K]; [injection K as <- _ _; cbn; tauto|]). contradiction.
Qed.
Lemma colours_same : default_colors = COLOURS. Proof. reflexivity. Qed.
Lemma colours_nodup : NoDup COLOURS.
Proof. unfold COLOURS. repeat constructor; cbn; intuition discriminate. Qed.

(** ** which instruments need a colour *)
Definition needs (fm : dict fmt) (t : string) : bool :=
  match dget fm t with Some f => negb (dmem f "color") | None => negb (dmem telfmts_default t) end.
Lemma needs_spec fm t : needs fm t = true <-> uncoloured fm t.
Proof.
  unfold needs, uncoloured, wrote_none, wrote, no_format. destruct (dget fm t) as [f|] eqn:E.
  - unfold dmem. destruct (dget f "color") as [c|] eqn:C; cbn; split; try easy.
    + intros [H _]. exfalso. apply (H c). exists f. auto.
    + intros _. split; [intros v (f' & Ef & Ev); injection Ef as <-; rewrite C in Ev; discriminate Ev|]. intro N. exfalso. apply N. eapply dget_key. exact E.
  - unfold dmem. destruct (known_table t) as [(d & n & c & Ed & K & _)|[Ed U]]; rewrite Ed; cbn; split; try easy.
    + intros [_ H]. exfalso. apply dget_none in E. exact (H E n c K).
    + intros _. split; [intros v (f & Ef & _); discriminate|auto].
Qed.

(** ** one instrument *)
(** the format used, when [j] colours were handed out before *)
Definition fmt_at (fm : dict fmt) (j : nat) (t : string) : fmt :=
  match dget fm t with
  | Some f => if dmem f "color" then f else dset f "color" (nth j default_colors "")
  | None => if dmem telfmts_default t then [] else [("color", nth j default_colors "")]
  end.
Definition fm_after (fm : dict fmt) (j : nat) (t : string) : dict fmt :=
  match dget fm t with
  | Some f => if dmem f "color" then fm else dset fm t (dset f "color" (nth j default_colors ""))
  | None => fm
  end.
Lemma color_at_ok j : (j < length COLOURS)%nat -> color_at j = Ok (nth j default_colors "").
Proof. intro H. unfold color_at. rewrite (nth_error_nth' _ "") by exact H. reflexivity. Qed.
Lemma color_at_end j : (length COLOURS <= j)%nat -> color_at j = Err IndexError.
Proof. intro H. unfold color_at. rewrite (proj2 (nth_error_None _ _)) by exact H. reflexivity. Qed.
Lemma choose_ok fm j t : (needs fm t = true -> (j < length COLOURS)%nat) ->
  choose_fmt fm j t = Ok (fm_after fm j t, if needs fm t then S j else j, fmt_at fm j t).
Proof.
  unfold choose_fmt, needs, fm_after, fmt_at. intro H. destruct (dget fm t) as [f|].
  - destruct (dmem f "color"); cbn in *; [reflexivity|]. rewrite color_at_ok by auto. reflexivity.
  - destruct (dmem telfmts_default t); cbn in *; [reflexivity|]. rewrite color_at_ok by auto. reflexivity.
Qed.
Lemma choose_err fm j t : needs fm t = true -> (length COLOURS <= j)%nat -> choose_fmt fm j t = Err IndexError.
Proof.
  unfold choose_fmt, needs. intros H L. destruct (dget fm t) as [f|].
  - destruct (dmem f "color"); [discriminate|]. now rewrite color_at_end.
  - destruct (dmem telfmts_default t); [discriminate|]. now rewrite color_at_end.
Qed.
Lemma fm_after_other fm j t t' : t' <> t -> dget (fm_after fm j t) t' = dget fm t'.
Proof. intro H. unfold fm_after. destruct (dget fm t) as [f|]; [|reflexivity]. destruct (dmem f "color"); [reflexivity|]. now apply dget_dset_other. Qed.
Lemma fm_after_same fm j t : dget (fm_after fm j t) t = match dget fm t with Some _ => Some (fmt_at fm j t) | None => None end.
Proof.
  unfold fm_after, fmt_at. destruct (dget fm t) as [f|] eqn:E; [|exact E]. destruct (dmem f "color"); [exact E|]. apply dget_dset_same.
Qed.

(** keywords *)
Definition KW0 : fmt := [("fmt", "o"); ("capsize", "0"); ("mew", "0"); ("ecolor", "0.6"); ("lw", "1.0"); ("color", "orange")].
Definition eff (t : string) (f : fmt) : fmt := match f, dget telfmts_default t with [], Some d => d | _, _ => f end.
Lemma kw_spec t f r : wf_dict f ->
  exists kw, telplot_kw t f r = Ok kw /\
    (forall o, o <> "label" -> dget kw o = match dget (eff t f) o with Some v => Some v | None => dget KW0 o end) /\
    (exists name note, dget kw "label" = Some (name ++ note) /\ rms_note note r /\
       match dget (eff t f) "label" with Some v => name = v | None => (exists c, known t name c) \/ unknown t /\ name = t end).
Proof.
  intro W. unfold telplot_kw. fold KW0. change (match f with [] => match dget telfmts_default t with Some d => d | None => f end | _ :: _ => f end) with (eff t f).
  assert (wf_dict (eff t f)) as WE.
  { unfold eff. destruct f; [|exact W]. destruct (known_table t) as [(d & n & c & Ed & _ & _ & _ & Wd & _)|[Ed _]]; rewrite Ed; [exact Wd|constructor]. }
  set (kw1 := dupdate KW0 (eff t f)).
  assert (forall o, dget kw1 o = match dget (eff t f) o with Some v => Some v | None => dget KW0 o end) as G.
  { intro o. destruct (dget (eff t f) o) as [v|] eqn:E; [now apply dget_dupdate_in|]. apply dget_dupdate_notin. now apply dget_none. }
  assert (exists kw2 name, (if dmem kw1 "label" then Ok kw1 else match dget telfmts_default t with
       | Some d => do l <- dget_res d "label"; Ok (dset kw1 "label" l) | None => Ok (dset kw1 "label" t) end) = Ok kw2 /\
     (forall o, o <> "label" -> dget kw2 o = dget kw1 o) /\ dget kw2 "label" = Some name /\
     match dget (eff t f) "label" with Some v => name = v | None => (exists c, known t name c) \/ unknown t /\ name = t end) as (kw2 & name & E2 & A2 & L2 & N2).
  { unfold dmem. rewrite G. destruct (dget (eff t f) "label") as [v|] eqn:EV.
    - exists kw1, v. split; [reflexivity|]. split; [reflexivity|]. rewrite G, EV. auto.
    - cbn [dget KW0 String.eqb Ascii.eqb Bool.eqb]. destruct (known_table t) as [(d & n & c & Ed & K & Ln & _)|[Ed U]]; rewrite Ed.
      + unfold dget_res. rewrite Ln. cbn [bind]. exists (dset kw1 "label" n), n. split; [reflexivity|].
        split; [intros; now apply dget_dset_other|]. split; [apply dget_dset_same|left; eauto].
      + exists (dset kw1 "label" t), t. split; [reflexivity|]. split; [intros; now apply dget_dset_other|]. split; [apply dget_dset_same|right; auto]. }
  cbv zeta. rewrite E2. cbn [bind]. destruct (reqb r 0) eqn:ER.
  - apply reqb_true in ER. exists kw2. split; [reflexivity|]. split; [intros o Ho; rewrite A2, G by exact Ho; reflexivity|].
    exists name, "". split; [rewrite L2; f_equal; clear; induction name; cbn; congruence|]. split; [split; [reflexivity|intro; easy]|exact N2].
  - apply reqb_false in ER. unfold dget_res. rewrite L2. cbn [bind]. exists (dset kw2 "label" (name ++ rms_text r)). split; [reflexivity|].
    split; [intros o Ho; rewrite dget_dset_other, A2, G by exact Ho; reflexivity|].
    exists name, (rms_text r). split; [apply dget_dset_same|]. split; [|exact N2]. split; [intro; easy|]. intros _. exists (fixed 2 r). split; [reflexivity|apply fixed_shows].
Qed.

(** ** the loop *)
Lemma filter_ext_in' {A} (f g : A -> bool) l : (forall a, In a l -> f a = g a) -> filter f l = filter g l.
Proof. intro H. induction l as [|a l IH]; cbn; [reflexivity|]. rewrite (H a) by now left. destruct (g a); rewrite IH; auto; intros; apply H; now right. Qed.
Definition count_needs (fm : dict fmt) (l : list string) : nat := length (filter (needs fm) l).
Definition rms_of (rv : dict R) (t : string) : R := match dget rv t with Some r => r | None => 0%R end.
Lemma fmt_at_wf fm j t : formats_wf fm -> wf_dict (fmt_at fm j t).
Proof.
  intro W. unfold fmt_at. destruct (dget fm t) as [f|] eqn:E; [destruct (dmem f "color"); [eauto|apply wf_dset; eauto]|].
  destruct (dmem telfmts_default t); unfold wf_dict; cbn; repeat constructor; auto.
Qed.
Lemma wf_after fm j t : formats_wf fm -> formats_wf (fm_after fm j t).
Proof.
  intros W t' f E. destruct (string_dec t' t) as [->|N].
  - rewrite fm_after_same in E. destruct (dget fm t); [|discriminate]. injection E as <-. now apply fmt_at_wf.
  - rewrite fm_after_other in E by exact N. eauto.
Qed.
Lemma needs_agree fm fm' t : dget fm t = dget fm' t -> needs fm t = needs fm' t.
Proof. unfold needs. now intros ->. Qed.
Lemma fmt_agree fm fm' j t : dget fm t = dget fm' t -> fmt_at fm j t = fmt_at fm' j t.
Proof. unfold fmt_at. now intros ->. Qed.

Section Loop.
  Context {X : Type}.
  Variables (x : list X) (y e : list R) (tel : list string) (rv : dict R).
  Hypothesis lens : length x = length tel /\ length y = length tel /\ length e = length tel.
  Lemma step_eq fm j out t : mtel_step x y e tel rv (fm, j, out) t =
    (do (fm', ci, f) <- choose_fmt fm j t;
     do rms <- match rv with [] => Ok 0%R | _ => dget_res rv t end;
     do kw <- telplot_kw t f rms;
     Ok (fm', ci, (out ++ [mkSer t (select tel t x) (select tel t y) (select tel t e) kw])%list)).
  Proof. unfold mtel_step. destruct lens as (-> & -> & ->). now rewrite !Nat.eqb_refl. Qed.
  Lemma rms_ok t l : rms_given rv l -> In t l -> match rv with [] => Ok 0%R | _ => dget_res rv t end = Ok (rms_of rv t).
  Proof.
    intros [->|H] I; [reflexivity|]. specialize (H t I). apply dget_some_key in H as (r & E). unfold rms_of, dget_res. rewrite E. destruct rv; [discriminate E|reflexivity].
  Qed.
  Lemma mtel_loop l : forall fm j out, NoDup l -> formats_wf fm -> rms_given rv l -> (j + count_needs fm l <= length COLOURS)%nat ->
    exists fm' ss, for_each l (mtel_step x y e tel rv) (fm, j, out) = Ok (fm', (j + count_needs fm l)%nat, (out ++ ss)%list) /\
      length ss = length l /\
      (forall i t, nth_error l i = Some t -> exists kw, nth_error ss i = Some (mkSer t (select tel t x) (select tel t y) (select tel t e) kw) /\
         telplot_kw t (fmt_at fm (j + count_needs fm (firstn i l)) t) (rms_of rv t) = Ok kw) /\
      (forall t, ~ In t l -> dget fm' t = dget fm t) /\
      (forall i t, nth_error l i = Some t -> dget fm' t = match dget fm t with Some _ => Some (fmt_at fm (j + count_needs fm (firstn i l)) t) | None => None end).
  Proof.
    induction l as [|t l IH]; intros fm j out ND W RG C.
    - exists fm, []. split; [cbn; rewrite Nat.add_0_r, app_nil_r; reflexivity|]. split; [reflexivity|]. split; [intros [|i] t; discriminate|]. split; [reflexivity|intros [|i] t; discriminate].
    - inversion ND as [|? ? Nt ND']; subst. cbn [for_each]. rewrite step_eq.
      assert (needs fm t = true -> (j < length COLOURS)%nat) as HN by (intro Q; unfold count_needs in C; cbn [filter] in C; rewrite Q in C; cbn in C; cbn; lia).
      rewrite (choose_ok fm j t HN). cbn [bind]. rewrite (rms_ok t (t :: l)); [|exact RG|now left]. cbn [bind].
      destruct (kw_spec t (fmt_at fm j t) (rms_of rv t) (fmt_at_wf _ _ _ W)) as (kw & EK & _). rewrite EK. cbn [bind].
      assert (forall a, In a l -> dget (fm_after fm j t) a = dget fm a) as AG by (intros a Ha; apply fm_after_other; intros ->; contradiction).
      assert (forall l', incl l' l -> count_needs (fm_after fm j t) l' = count_needs fm l') as CN.
      { intros l' I. unfold count_needs. f_equal. apply filter_ext_in'. intros a Ha. apply needs_agree. apply AG, I, Ha. }
      set (j' := if needs fm t then S j else j).
      assert (forall l', (j' + count_needs fm l' = j + count_needs fm (t :: l'))%nat) as JJ by (intro l'; unfold j', count_needs; cbn [filter]; destruct (needs fm t); cbn; lia).
      destruct (IH (fm_after fm j t) j' (out ++ [mkSer t (select tel t x) (select tel t y) (select tel t e) kw])%list) as (fm' & ss & E & L & A & B & D).
      + exact ND'.
      + now apply wf_after.
      + destruct RG as [R|R]; [now left|right; intros; apply R; now right].
      + rewrite CN by apply incl_refl. rewrite JJ. exact C.
      + rewrite CN in E by apply incl_refl. rewrite JJ in E.
        exists fm', (mkSer t (select tel t x) (select tel t y) (select tel t e) kw :: ss). split; [rewrite E, <- app_assoc; reflexivity|]. split; [cbn; lia|].
        assert (forall i, incl (firstn i l) l) as FI by (intros i a Ha; rewrite <- (firstn_skipn i l); apply in_or_app; now left).
        split; [|split].
        * intros [|i] t' Et; cbn [nth_error] in *.
          -- injection Et as <-. exists kw. split; [reflexivity|]. cbn [firstn]. unfold count_needs. cbn. now rewrite Nat.add_0_r.
          -- destruct (A i t' Et) as (kw' & E1 & E2). exists kw'. split; [exact E1|]. cbn [firstn]. rewrite <- JJ. rewrite <- E2. f_equal.
             rewrite CN by apply FI. apply fmt_agree. symmetry. apply AG. eapply nth_error_In; eauto.
        * intros t' N. rewrite B by (intro Q; apply N; now right). apply fm_after_other. intros ->. apply N. now left.
        * intros [|i] t' Et; cbn [nth_error] in *.
          -- injection Et as <-. rewrite B by exact Nt. rewrite fm_after_same. cbn [firstn]. unfold count_needs. cbn. now rewrite Nat.add_0_r.
          -- rewrite (D i t' Et). rewrite AG by (eapply nth_error_In; eauto). destruct (dget fm t'); [|reflexivity]. cbn [firstn]. rewrite <- JJ. f_equal.
             rewrite CN by apply FI. apply fmt_agree. apply AG. eapply nth_error_In; eauto.
  Qed.
  Lemma mtel_loop_err l : forall fm j out, NoDup l -> formats_wf fm -> rms_given rv l -> (j <= length COLOURS)%nat -> (length COLOURS < j + count_needs fm l)%nat ->
    for_each l (mtel_step x y e tel rv) (fm, j, out) = Err IndexError.
  Proof.
    induction l as [|t l IH]; intros fm j out ND W RG J C; [unfold count_needs in C; cbn in C, J; lia|].
    inversion ND as [|? ? Nt ND']; subst. cbn [for_each]. rewrite step_eq.
    destruct (needs fm t) eqn:N; [destruct (Nat.eq_dec j (length COLOURS)) as [->|NJ]|].
    - rewrite choose_err; auto.
    - rewrite choose_ok, N by (intros _; lia). cbn [bind]. rewrite (rms_ok t (t :: l)); [|exact RG|now left]. cbn [bind].
      destruct (kw_spec t (fmt_at fm j t) (rms_of rv t) (fmt_at_wf _ _ _ W)) as (kw & EK & _). rewrite EK. cbn [bind].
      apply IH; auto; [now apply wf_after|destruct RG as [R|R]; [now left|right; intros; apply R; now right]|lia|].
      replace (count_needs (fm_after fm j t) l) with (count_needs fm l); [unfold count_needs in C |- *; cbn [filter] in C; rewrite N in C; cbn [length] in C; lia|].
      unfold count_needs. f_equal. apply filter_ext_in'. intros a Ha. apply needs_agree. symmetry. apply fm_after_other. intros ->; contradiction.
    - rewrite choose_ok by (rewrite N; discriminate). rewrite N. cbn [bind]. rewrite (rms_ok t (t :: l)); [|exact RG|now left]. cbn [bind].
      destruct (kw_spec t (fmt_at fm j t) (rms_of rv t) (fmt_at_wf _ _ _ W)) as (kw & EK & _). rewrite EK. cbn [bind].
      apply IH; auto; [now apply wf_after|destruct RG as [R|R]; [now left|right; intros; apply R; now right]|].
      replace (count_needs (fm_after fm j t) l) with (count_needs fm l); [unfold count_needs in C |- *; cbn [filter] in C; rewrite N in C; lia|].
      unfold count_needs. f_equal. apply filter_ext_in'. intros a Ha. apply needs_agree. symmetry. apply fm_after_other. intros ->; contradiction.
  Qed.
End Loop.
