(** Examples for C81. *)
From Coq Require Import ZArith Reals String Ascii Arith Bool Lia Lra List.
From Verif Require Import Py PyFacts PyFloat Params ParamsSpec Basis BasisThms Kepler Likelihood Stats PostProc PostProcThms ParTable ParTableSpec ParTableThms Derive DerivTab DerivTabThms CompTable RvTab Pipeline PickleProofs TexLabels RepChains RepChainsThms ExRepChains TabRun TabRunSpec TabRunProofs TabAgain TabRunThms.
Import ListNotations.
Open Scope R_scope.
Open Scope string_scope.

(** ** one planet, equal samples of its mass *)
Definition xm_chains (x : R) : dict (list R) := [("mpsini1", [x; x]); ("lnprobability", [1; 2])].
Definition xm_tex (x : R) : tex := mkTex true (xm_chains x) (DerivTab.quantiles (xm_chains x)) [] [] [] None.
(** a value is shown as big or small *)
Definition xm_show (q : R * R * R) (_ : R) (_ : option (R * R * R)) : res string := Ok (if rltb 100 (snd (fst q)) then "big" else "small").
Definition xm_err (_ : list R) : res (R * R * R) := Err ValueError.
Definition xm_row (text unit : string) : trow := mkTrow "mpsini1" "$M_b\sin i$" text unit.

Lemma two_quantile q x : 0 <= q <= 1 -> quantile q [x; x] = x.
Proof. intro H. apply (quantile_const q x 2); [lia|exact H]. Qed.
Lemma two_median x : median [x; x] = x.
Proof. rewrite <- quantile_half by discriminate. apply two_quantile. lra. Qed.
Lemma two_idx : idxmax [1; 2] = Ok 1%nat.
Proof. unfold idxmax, idxmax_from. destruct (rltb 1 2) eqn:E; [reflexivity|]. apply rltb_false in E. lra. Qed.

Lemma plot_one x : derived_plot 1 None [] (xm_chains x) =
  Ok (if rltb 100 x then (xm_chains (x * (315 / 100000)), [mkDlabel "mpsini1" (Some "$M_b\sin i$") JUP]) else (xm_chains x, [mkDlabel "mpsini1" (Some "$M_b\sin i$") EARTH])).
Proof.
  unfold derived_plot. cbn [seq for_each bind letter_at default_letters find Nat.eqb fst snd fold_left]. unfold dp_key at 3. cbn [fst snd].
  change (key "mpsini" 1) with "mpsini1". change (dget (xm_chains x) "mpsini1") with (Some [x; x]). cbn iota. cbn [existsb]. change (String.eqb "mpsini" "mpsini") with true. cbn iota. rewrite two_median.
  change (texlabel "mpsini1" "b") with (Some "$M_b\sin i$"). destruct (rltb 100 x); reflexivity.
Qed.
Lemma derived_one x latex units maxp comp : get_text units "mpsini" = "" -> dmem maxp "mpsini1" = dmem units "mpsini1" ->
  let s := mkTex true (xm_chains x) (DerivTab.quantiles (xm_chains x)) latex maxp units comp in
  exists s', derived_tab (R * R * R) (nodup string_dec) xm_err (fun q => q) xm_show 1 None [] [] s =
    Ok (TabDerived (Some [if rltb 100 x then xm_row (if rltb 100 (x * (315 / 100000)) then "big" else "small") JUP else xm_row "small" EARTH]), s') /\
  x_derived s' = true /\ x_chains s' = xm_chains (if rltb 100 x then x * (315 / 100000) else x) /\ get_text (x_units s') "mpsini" = "" /\ dmem (x_maxp s') "mpsini1" = dmem (x_units s') "mpsini1" /\ x_quant s' = DerivTab.quantiles (x_chains s') /\ x_comp s' = comp.
Proof.
  intros U M s. unfold derived_tab. cbn [s x_derived negb x_chains x_maxp x_latex x_units x_comp]. unfold tab_derived. rewrite plot_one. cbn [bind].
  set (y := if rltb 100 x then x * (315 / 100000) else x). set (u := if rltb 100 x then JUP else EARTH).
  assert ((if rltb 100 x then (xm_chains (x * (315 / 100000)), [mkDlabel "mpsini1" (Some "$M_b\sin i$") JUP]) else (xm_chains x, [mkDlabel "mpsini1" (Some "$M_b\sin i$") EARTH])) =
    (xm_chains y, [mkDlabel "mpsini1" (Some "$M_b\sin i$") u])) as -> by (unfold y, u; destruct (rltb 100 x); reflexivity).
  cbn [fst snd map d_label d_tex d_unit for_each]. change (dget_res (xm_chains y) "lnprobability") with (Ok [1; 2]). cbn [bind]. rewrite two_idx. cbn [bind]. change (dget_res (xm_chains y) "mpsini1") with (Ok [y; y]). cbn [bind nth].
  change (split (String.concat " " (nodup string_dec [butlast "mpsini1"]))) with ["mpsini"].
  unfold ParTable.table_rows. cbn [seq flat_map map app for_each]. unfold add_row at 1. cbn [fst snd]. change (key "mpsini" 1) with "mpsini1".
  assert (forall d : dict string, get_text d "mpsini" = "" -> get_text (dupdate d [("mpsini1", u)]) "mpsini" = "") as GU by (intros d Hd; unfold get_text, dupdate; cbn [fold_left fst snd]; now rewrite dget_dset_other by discriminate).
  assert (unit_of (dupdate units [("mpsini1", u)]) [] "mpsini" "mpsini1" = u) as ->.
  { unfold unit_of. rewrite GU by exact U. cbn [String.eqb find]. destruct (true && _); unfold get_text, dupdate; cbn [fold_left fst snd String.eqb]; rewrite dget_dset_same; reflexivity. }
  unfold row_of. assert (dmem (DerivTab.quantiles (xm_chains y)) "mpsini1" = true) as -> by reflexivity.
  assert (String.eqb u "radians" = false) as -> by (unfold u; destruct (rltb 100 x); reflexivity). cbn [dget_res].
  unfold dget_res. rewrite DerivTabThms.quantiles_get. change (dget (xm_chains y) "mpsini1") with (Some [y; y]). cbn [option_map bind]. rewrite dget_dset_same. cbn [bind].
  unfold dupdate at 1. cbn [fold_left fst snd]. rewrite dget_dset_same. cbn [bind]. rewrite !two_quantile by lra. unfold xm_show. cbn [fst snd bind app].
  eexists. split.
  - assert ((if rltb 100 x then xm_row (if rltb 100 (x * (315 / 100000)) then "big" else "small") JUP else xm_row "small" EARTH) = xm_row (if rltb 100 y then "big" else "small") u) as ->; [|reflexivity].
    unfold y, u. destruct (rltb 100 x) eqn:E; [reflexivity|]. rewrite E. reflexivity.
  - cbn [x_derived x_chains x_units x_maxp x_quant x_comp]. split; [reflexivity|]. split; [reflexivity|]. split; [now apply GU|]. split; [|split; reflexivity].
    unfold dmem, dupdate. cbn [fold_left fst snd]. now rewrite !dget_dset_same.
Qed.
Lemma small_jup : rltb 100 500 = true /\ rltb 100 (500 * (315 / 100000)) = false.
Proof. split; [apply rltb_true; lra|apply rltb_false; lra]. Qed.

Section Bad.
Variables (two_digits : ext -> string) (fb : string) (extra names : list string) (priors : res (list string)) (x y yerr : list R) (telvec : list string) (minafactor maxarchange maxgr mintz : option ext).
Notation run := (tables_run (R * R * R) (nodup string_dec) xm_err (fun q => q) xm_show two_digits 1 None [] [] fb extra names priors x y yerr telvec minafactor maxarchange maxgr mintz).
(** alone: 500 Earth masses are shown as a small number of Jupiter masses *)
Lemma derived_first ic again files : exists s', run true ic again [TDerived] (xm_tex 500) files = (dset files "derived" (TabDerived (Some [xm_row "small" JUP])), Ok s').
Proof.
  destruct (derived_one 500 [] [] [] None eq_refl eq_refl) as (s' & E & _). exists s'. cbn [tables_run one_tab]. unfold xm_tex. rewrite E. destruct small_jup as [-> ->]. reflexivity.
Qed.
(** the second table of one run: a small number of Earth masses *)
Lemma derived_twice ic again files : exists files' s', run true ic again [TDerived; TDerived] (xm_tex 500) files = (files', Ok s') /\ dget files' "derived" = Some (TabDerived (Some [xm_row "small" EARTH])).
Proof.
  destruct (derived_one 500 [] [] [] None eq_refl eq_refl) as (s1 & E & D & C & U & M & Q & _). cbn [tables_run one_tab]. unfold xm_tex. rewrite E. destruct small_jup as [H1 H2]. rewrite H1, H2 in *.
  destruct s1 as [d c qq l m u cp]. cbn [x_derived x_chains x_units x_maxp x_quant] in *. subst d c qq. destruct (derived_one (500 * (315 / 100000)) l u m cp U M) as (s2 & E2 & _). rewrite E2, H2.
  do 2 eexists. split; [reflexivity|]. apply dget_dset_same.
Qed.
(** after a comparison: no derived table at all *)
Lemma derived_after c l rows comp files : tab_comparison two_digits (Some comp) = Ok rows -> exists files' s', run true (Some (Ok comp)) (Ok (c, l)) [TIc; TDerived] (xm_tex 500) files = (files', Ok s') /\ dget files' "derived" = Some (TabDerived None).
Proof.
  intro E. cbn [tables_run one_tab bind]. unfold comp_tab. cbn [x_comp]. rewrite E. cbn [bind]. unfold derived_tab. cbn [x_derived negb]. do 2 eexists. split; [reflexivity|]. apply dget_dset_same.
Qed.
End Bad.

(** ** a run on a posterior of two planets *)
Definition xm_nofail (_ : list R) : res unit := Ok tt.
Definition xm_text (_ : unit) (_ : R) (_ : option (R * R * R)) : res string := Ok "1".
Lemma rows_total C Q T N chains quant maxp latex units suffixes (geterr : C -> res T) (ofq : Q -> T) (show : T -> N -> option Q -> res string) names loops :
  (forall c, exists t, geterr c = Ok t) -> (forall t m q, exists x, show t m q = Ok x) ->
  exists rows, ParTable.table_rows C Q T N chains quant maxp latex units suffixes geterr ofq show names loops = Ok rows.
Proof.
  intros G S. unfold ParTable.table_rows. apply planets_total. intros rows pn _. unfold add_row, row_of, dget_res. cbv zeta.
  repeat match goal with
  | |- context [if String.eqb ?a "radians" then _ else _] => destruct (String.eqb a "radians")
  | |- context [dmem quant ?k] => destruct (dmem quant k)
  | |- context [dget chains ?k] => destruct (dget chains k); cbn [bind]
  | |- context [bind (geterr ?c)] => destruct (G c) as [? ->]; cbn [bind]
  | |- context [bind (show ?a ?b ?c)] => destruct (S a b c) as [? ->]; cbn [bind]
  | |- context [match dget ?d ?k with Some v => Ok v | None => _ end] => destruct (dget d k); cbn [bind]
  | |- context [match geterr ?c with Ok _ => _ | Err _ => _ end] => destruct (G c) as [? ->]; cbn [bind]
  end; eauto.
Qed.
Lemma xm_params nplanets suffixes fb extra names s : exists tb, params_tab unit xm_nofail (fun _ => tt) xm_text nplanets suffixes fb extra names s = Ok tb.
Proof.
  unfold params_tab, tab_params.
  destruct (rows_total (list R) (R * R * R) unit R (x_chains s) (x_quant s) (x_maxp s) (x_latex s) (x_units s) suffixes xm_nofail (fun _ => tt) xm_text (split fb) nplanets) as [a ->]; [intros; eexists; reflexivity|intros; eexists; reflexivity|].
  destruct (rows_total (list R) (R * R * R) unit R (x_chains s) (x_quant s) (x_maxp s) (x_latex s) (x_units s) suffixes xm_nofail (fun _ => tt) xm_text (split print_basis) nplanets) as [b ->]; [intros; eexists; reflexivity|intros; eexists; reflexivity|].
  destruct (rows_total (list R) (R * R * R) unit R (x_chains s) (x_quant s) (x_maxp s) (x_latex s) (x_units s) suffixes xm_nofail (fun _ => tt) xm_text (split (String.concat " " (extra_names extra names))) 1) as [c ->]; [intros; eexists; reflexivity|intros; eexists; reflexivity|].
  cbn [bind]. eauto.
Qed.
Definition xt_extra : list string := ["gamma_j"; "dvdt"; "jit_j"].
Lemma xt_plain : plain_names print_basis xt_extra xt_extra ["_j"].
Proof.
  assert (forall q c r, q = String c r -> ~ In c ["m"; "r"; "a"; "_"]%char -> plain q) as K by (intros; eexists _, _; eauto).
  split; [|split].
  - intros p [<-|[<-|[<-|[<-|[<-|[<-|[]]]]]]]; (eapply K; [reflexivity|cbn; intuition discriminate]).
  - intros p H. assert (In p xt_extra) as [<-|[<-|[<-|[]]]] by tauto; (split; [apply one_word_dec; reflexivity|eapply K; [reflexivity|cbn; intuition discriminate]]).
  - intros s [<-|[]]. now exists "j".
Qed.
Lemma xt_reported : exists h1 q cols labels, reported xr_h xr_ps xr_b xr_chains h1 q cols labels.
Proof.
  destruct (report_main xr_h xr_ps xr_b xr_names xr_chains xr_ok xr_all xr_val xr_holds) as (h1 & q & cols & E & _). exists h1, q, cols.
  pose proof E as E'. unfold report_init in E'. destruct (report_params xr_h xr_ps) as [[h1' q1]|] eqn:P; [|discriminate]. cbn [bind] in E'. destruct q1 as [q1|]; [|discriminate].
  destruct (report_chains _ _ _ _); [|discriminate]. cbn [bind] in E'. injection E' as -> -> _. destruct (report_keys _ _ _ _ P) as (_ & _ & F & N & M & L & B & PP).
  destruct (tex_labels_total (ps_pp q) (ps_letters q) (dkeys (ps_items q)) N) as [labels TL].
  - intros k Hk. rewrite PP, L. apply F in Hk.
    assert (In k (ex_keys xr_names ++ default_keys 2 xr_names ++ default_keys 2 ["per"; "tp"; "e"; "w"; "k"] ++ default_keys 2 ["per"; "tc"; "tp"; "e"; "w"; "k"])%list) as HK.
    { rewrite !in_app_iff. destruct Hk as [Z|[Z|[Z|(p & n & Hp & Hn & ->)]]]; [left; exact Z|right; left; exact Z|right; right; left; exact Z|]. right; right; right. apply default_keys_in. exists n, p. repeat split; try exact Hp; cbn in Hn; lia. }
    clear - HK. cbn in HK. repeat (destruct HK as [<-|HK]; [eexists; vm_compute; reflexivity|]). contradiction.
  - exists labels. split; [apply xr_ok|reflexivity|eauto|exact TL].
Qed.
