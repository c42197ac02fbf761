(** Examples for the theorems on the text in a panel (C80). *)
From Coq Require Import ZArith Reals String Ascii Arith Bool Lra Lia List.
From Flocq Require Import Core.
From Verif Require Import Py PyFacts PyFloat Params ParamsSpec ParamsProofs Likelihood Format FormatProofs Stats PostProc PostProcSpec ParTable ParTableSpec DerivTab DerivTabSpec DerivTabProofs DerivTabThms TexLabels ChainPlot ChainPlotThms TexProofs Anno AnnoSpec AnnoProofs AnnoThms.
Import ListNotations.
Open Scope R_scope.
Open Scope string_scope.

Lemma quant20 q : 0 <= q < 1 -> quantile q [0; 20] = 20 * q.
Proof.
  intro H. unfold quantile. cbn [length Nat.sub INR]. replace (1 * q) with q by lra. rewrite (Zfloor_imp 0) by (cbn; lra). cbn [Z.to_nat].
  assert (sort [0; 20] = [0; 20]) as ->. { unfold sort. cbn [insert]. rewrite (proj2 (rleb_true 0 20)) by lra. reflexivity. }
  cbn. lra.
Qed.
Lemma err20 : 1 / 10 ^ 15 < round_sig ((quantile (841 / 1000) [0; 20] - quantile (159 / 1000) [0; 20]) / 2) 2.
Proof.
  rewrite !quant20 by lra. set (x := (20 * (841 / 1000) - 20 * (159 / 1000)) / 2). assert (x = 682 / 100) as EX by (unfold x; lra). clearbody x.
  destruct (round_sig_spec x 2) as (k & [K1 K2] & _ & B & _); [lra|]. rewrite Rabs_right in K1 by lra.
  replace (k + 1 - 2)%Z with (k + -1)%Z in B by lia. rewrite p10_add in B. pose proof (p10_pos k). assert (p10 (-1) = 1 / 10) as E1 by (pose proof (p10_opp 1) as PO; change (p10 1) with (10 * 1) in PO; change (- (1))%Z with (-1)%Z in PO; lra). rewrite E1 in B.
  apply Rabs_le_inv in B. assert (1 / 10 ^ 15 < 1) by (apply Rmult_lt_reg_r with (10 ^ 15); [apply pow_lt; lra|]; unfold Rdiv; rewrite Rmult_assoc, Rinv_l by (apply pow_nonzero; lra); rewrite !Rmult_1_l; apply Rlt_pow_R1; [lra|lia]). lra.
Qed.
Definition ydexp (_ : R) : Z := (-1)%Z.
Lemma ywholes : wholes ydexp (fun _ => false).
Proof. intros e [H|[_ H]]; discriminate. Qed.
(** the driver's summary of a column *)
Lemma reported20 fuel best : let e := round_sig ((quantile (841 / 1000) [0; 20] - quantile (159 / 1000) [0; 20]) / 2) 2 in
  reported_for ydexp (fun _ => false) fuel [0; 20] best (e, round_dec (quantile (1 / 2) [0; 20]) 1, round_dec best 1).
Proof.
  intro e. pose proof err20 as L. fold e in L. assert (0 < 1 / 10 ^ 15) by (apply Rdiv_lt_0_compat; [lra|apply pow_lt; lra]).
  split; [discriminate|]. fold e. split; [intro; lra|]. intros _. do 6 eexists. rewrite !sigfig_none. cbn. split; [reflexivity|]. split; reflexivity.
Qed.
Lemma summary_ex : exists fuel us ms e med b d lines, dget us "per1" = Some e /\ dget ms "per1" = Some med /\ wholes ydexp (fun _ => false) /\
  reported_for ydexp (fun _ => false) fuel [0; 20] 3 (e, med, b) /\ 1 / 10 ^ 15 < e /\ tex_labels ["per"; "k"; "e"] None (dkeys xv) = Ok d /\
  annotation xstr xstr ydexp (fun _ => false) fuel ["per"; "k"; "e"] None xv (Some us) (Some ms) None None 1 1 = Ok lines.
Proof.
  set (e := round_sig ((quantile (841 / 1000) [0; 20] - quantile (159 / 1000) [0; 20]) / 2) 2).
  set (med := round_dec (quantile (1 / 2) [0; 20]) 1). set (us := [("per1", e); ("k1", 1); ("e1", 1)]). set (ms := [("per1", med); ("k1", 1); ("e1", 1)]).
  assert (exists d, tex_labels ["per"; "k"; "e"] None (dkeys xv) = Ok d) as [d D] by (eexists; reflexivity).
  destruct (anno_written xstr xstr ydexp (fun _ => false) _ _ xv (Some us) (Some ms) None None 1 1 d D) as [F HF].
  - intros p [<-|[<-|[<-|[]]]]; (split; [eexists; reflexivity|split; eexists; reflexivity]).
  - exact I.
  - destruct (HF F (le_n F)) as [lines HL]. exists F, us, ms, e, med, (round_dec 3 1), d, lines. split; [reflexivity|]. split; [reflexivity|]. split; [exact ywholes|]. split; [exact (reported20 F 3)|].
    split; [exact err20|]. split; [exact D|exact HL].
Qed.
(** without uncertainties *)
Lemma plain_ex : annotation xstr xstr ydexp (fun _ => false) 0 ["per"; "k"; "e"] None xv None None None None 1 1 =
  Ok ["$\mathregular{P_{b}}$ = x days"; "$\mathregular{K_{b}}$ = x m s$^{\mathregular{-1}}$"; "$\mathregular{e_{b}}$ = x "].
Proof. reflexivity. Qed.
Definition q111 : derived_table := [("mpsini1", (1, 1, 1))].
Lemma mass_ex : exists fuel lines, annotation xstr xstr xdexp (fun _ => false) fuel ["per"; "k"; "e"] None xv (Some xv) (Some xv) (Some xq) (Some xfile) 1 1 = Ok lines.
Proof.
  assert (exists d, tex_labels ["per"; "k"; "e"] None (dkeys xv) = Ok d) as [d D] by (eexists; reflexivity).
  destruct (anno_written xstr xstr xdexp (fun _ => false) _ _ xv (Some xv) (Some xv) (Some xq) (Some xfile) 1 1 d D) as [F HF].
  - intros p [<-|[<-|[<-|[]]]]; (split; [eexists; reflexivity|split; eexists; reflexivity]).
  - exists (fst xfile), (snd xfile), [500; 510]. eexists. split; [reflexivity|]. split; [lia|]. split; [lia|]. split; [reflexivity|]. split; [intros []|reflexivity].
  - destruct (HF F (le_n F)) as [lines HL]. eauto.
Qed.
Lemma fallback_ex : exists lines, annotation xstr xstr ydexp (fun _ => false) 0 ["per"; "k"; "e"] None xv (Some [("per1", 0); ("k1", 0); ("e1", 0); ("mpsini1", 0)]) None (Some q111) None 1 1 = Ok lines.
Proof.
  unfold annotation. cbn [labels_of map_res]. assert (rltb (1 / 10 ^ 15) 0 = false) as Z. { apply rltb_false. assert (0 < 1 / 10 ^ 15) by (apply Rdiv_lt_0_compat; [lra|apply pow_lt; lra]). lra. }
  match goal with |- exists l, bind ?z _ = _ => assert (exists ls, z = Ok ls) as [ls ->] by (eexists; reflexivity) end. cbn [bind].
  match goal with |- exists l, bind ?z _ = _ => assert (exists ms, z = Ok ms) as [ms ->] end.
  { apply map_res_all. intros [p l] Hx. apply in_combine_l in Hx. cbn [fst snd]. unfold element_line, measured.
    destruct Hx as [<-|[<-|[<-|[]]]]; cbn -[pow rltb Rdiv]; rewrite Z; eexists; reflexivity. }
  cbn [bind]. unfold mass_of_error, key. cbn -[pow rltb Rdiv sigfig round_sig]. rewrite round_sig_zero, Z. eexists. reflexivity.
Qed.
