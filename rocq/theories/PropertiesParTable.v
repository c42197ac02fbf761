(** Property theorems C64: the parameter table of the report. *)
From Coq Require Import Reals String Ascii Arith Bool Lia List.
From Verif Require Import Py PyFacts Params Basis Likelihood DecorrSpec DecorrProofs ParTable ParTableSpec ParTableProofs ParTableThms.
Import ListNotations.
Open Scope string_scope.

(** * C64 *)
(** Label, numbers and best value of every row belong to one parameter, and that is the parameter
    asked for or, if there is none of that name, the one without the last character. *)
Theorem C64_rows_own : forall C Q T N chains quant maxparams latex units suffixes geterr of_quantiles show names n rows r,
  table_rows C Q T N chains quant maxparams latex units suffixes geterr of_quantiles show names n = Ok rows -> In r rows ->
  exists p i, In p names /\ (1 <= i <= n)%nat /\
    own_row C Q T N chains quant maxparams latex geterr of_quantiles show (w_key r) (unit_of units suffixes p (key p i)) r /\
    ((In (key p i) (dkeys quant) /\ w_key r = key p i) \/ (~ In (key p i) (dkeys quant) /\ exists c, key p i = w_key r ++ String c "")).
Proof. exact rows_own. Qed.
Print Assumptions C64_rows_own.

Example C64_rows_own_ex : xt_rows ["per1"; "w1"; "dvdt"] [] ["per"; "w"] 1 = Ok [mkTrow "per1" "t:per1" "q:per1/m:per1" "days"; mkTrow "w1" "t:w1" "c:w1/m:w1" "radians"] /\
  xt_rows ["per1"; "w1"; "dvdt"] [] ["dvdt"] 1 = Ok [mkTrow "dvdt" "t:dvdt" "q:dvdt/m:dvdt" "m s$^{-1}$ d$^{-1}$"].
Proof. split; reflexivity. Qed.

(** Rows of the planets: planet by planet, in the order of the names, those with label and best value. *)
Theorem C64_planets : forall C Q T N chains quant maxparams latex units suffixes geterr of_quantiles show,
  (forall k, dmem quant k = dmem chains k) -> formats C Q T N geterr show -> forall names n,
  (forall k, In k (numbered names n) -> In k (dkeys quant)) ->
  exists rows, table_rows C Q T N chains quant maxparams latex units suffixes geterr of_quantiles show names n = Ok rows /\
    map w_key rows = filter (listed N maxparams latex) (numbered names n).
Proof. exact planet_rows. Qed.
Print Assumptions C64_planets.

Example C64_planets_ex : exists rows, xt_rows ["per1"; "w1"; "per2"; "w2"] [] ["per"; "w"] 2 = Ok rows /\ map w_key rows = ["per1"; "w1"; "per2"; "w2"].
Proof.
  destruct (C64_planets string string string string (xt_dict (append "c:") ["per1"; "w1"; "per2"; "w2"]) (xt_dict (append "q:") ["per1"; "w1"; "per2"; "w2"]) (xt_dict (append "m:") ["per1"; "w1"; "per2"; "w2"]) (xt_dict (append "t:") ["per1"; "w1"; "per2"; "w2"]) report_units [] (@Ok string) (fun q => q) xt_show (xt_same _) xt_formats ["per"; "w"] 2) as (rows & E & K).
  - cbn. tauto.
  - exists rows. split; [exact E|]. rewrite K. reflexivity.
Qed.

(** The whole table, if no parameter outside the orbits has a namesake with a "1" behind it. *)
Theorem C64_table_partial : forall C Q T N chains quant maxparams latex units suffixes geterr of_quantiles show fb n ep names,
  (forall k, dmem quant k = dmem chains k) -> formats C Q T N geterr show ->
  (forall k, In k (numbered (split fb) n) \/ In k (numbered ["per"; "tc"; "tp"; "e"; "w"; "k"] n) -> In k (dkeys quant)) ->
  (forall p, In p (extra_names ep names) -> one_word p /\ ~ In (p ++ "1") (dkeys quant)) ->
  exists a b c, tab_params C Q T N chains quant maxparams latex units suffixes geterr of_quantiles show fb n ep names = Ok (a, b, c) /\
    map w_key a = filter (listed N maxparams latex) (numbered (split fb) n) /\
    map w_key b = filter (listed N maxparams latex) (numbered ["per"; "tc"; "tp"; "e"; "w"; "k"] n) /\
    map w_key c = filter (fun k => dmem quant k && listed N maxparams latex k) (extra_names ep names).
Proof. exact whole_table. Qed.
Print Assumptions C64_table_partial.

Example C64_table_partial_ex : exists a b c,
  tab_params string string string string (xt_dict (append "c:") xt_keys) (xt_dict (append "q:") xt_keys) (xt_dict (append "m:") xt_keys) (xt_dict (append "t:") xt_keys)
    report_units ["_a"; "_b"] (@Ok string) (fun q => q) xt_show "per tc e w k" 1 ["gamma_a"; "jit_a"; "gamma_b"; "jit_b"] xt_keys = Ok (a, b, c) /\
  map w_key a = ["per1"; "tc1"; "e1"; "w1"; "k1"] /\ map w_key b = ["per1"; "tc1"; "tp1"; "e1"; "w1"; "k1"] /\
  map w_key c = ["gamma_b"; "gamma_a"; "dvdt"; "jit_a"; "gp_amp"].
Proof.
  destruct (C64_table_partial string string string string (xt_dict (append "c:") xt_keys) (xt_dict (append "q:") xt_keys) (xt_dict (append "m:") xt_keys) (xt_dict (append "t:") xt_keys) report_units ["_a"; "_b"] (@Ok string) (fun q => q) xt_show "per tc e w k" 1 ["gamma_a"; "jit_a"; "gamma_b"; "jit_b"] xt_keys (xt_same xt_keys) xt_formats) as (a & b & c & E & Ka & Kb & Kc).
  - cbn. tauto.
  - intros p Hp. cbn in Hp. decompose [or] Hp; subst; try contradiction; (split; [apply one_word_dec; reflexivity|cbn; intuition discriminate]).
  - exists a, b, c. split; [exact E|]. rewrite Ka, Kb, Kc. repeat split; reflexivity.
Qed.

(** An instrument named like another one with a "1" behind: the row of the latter appears twice,
    that of the former is missing. *)
Theorem C64_namesake_refuted : exists keys rows, keys = ["gamma_j"; "gamma_j1"] /\
  extra_names keys [] = ["gamma_j1"; "gamma_j"; "dvdt"; "curv"; "jit"] /\
  xt_rows keys (with_underscore (suffixes_of ["j"; "j1"])) (extra_names keys []) 1 = Ok rows /\ map w_key rows = ["gamma_j1"; "gamma_j1"].
Proof. exact (ex_intro _ _ (ex_intro _ _ (conj eq_refl (conj eq_refl (conj eq_refl eq_refl))))). Qed.
Print Assumptions C64_namesake_refuted.

(** Units: that of the name if it has one; for a name with an instrument suffix, that of the name
    without the suffix, if the suffix is the only one occurring in it. *)
Theorem C64_unit_own : forall units suffixes p par, get_text units p <> "" -> unit_of units suffixes p par = get_text units p.
Proof. exact unit_own. Qed.
Print Assumptions C64_unit_own.

Example C64_unit_own_ex : get_text report_units "per" <> "" /\ unit_of report_units ["_j"] "per" "per1" = "days".
Proof. split; [discriminate|reflexivity]. Qed.

Theorem C64_unit_suffix_partial : forall units suffixes s b par, s <> "" -> only_suffix suffixes s (b ++ s) -> only_at_end s b ->
  ~ In (b ++ s) (dkeys units) -> ~ In par (dkeys units) ->
  unit_of units suffixes (b ++ s) par = get_text units b.
Proof. exact unit_suffix. Qed.
Print Assumptions C64_unit_suffix_partial.

Example C64_unit_suffix_partial_ex : unit_of report_units (with_underscore (suffixes_of ["hires"; "harps"])) "gamma_hires" "gamma_hires1" = "m s$-1$".
Proof.
  apply (C64_unit_suffix_partial report_units ["_hires"; "_harps"] "_hires" "gamma" "gamma_hires1"); [discriminate| | | |].
  - apply only_suffix_dec; [now left|reflexivity].
  - apply (only_at_end_char "_" "hires" "gamma"); intro O; apply substr_occurs in O; discriminate.
  - cbn. intuition discriminate.
  - cbn. intuition discriminate.
Qed.

(** With one instrument the suffixes looked for are the letters of its name. *)
Theorem C64_unit_one_instrument_refuted : exists likes, likes = ["hires"] /\ get_text report_units "gamma" = "m s$-1$" /\
  unit_of report_units (with_underscore (suffixes_of likes)) "gamma_hires" "gamma_hires1" = "" /\
  unit_of report_units (with_underscore likes) "gamma_hires" "gamma_hires1" = "m s$-1$".
Proof. exact (ex_intro _ _ (conj eq_refl (conj eq_refl (conj eq_refl eq_refl)))). Qed.
Print Assumptions C64_unit_one_instrument_refuted.

(** One instrument's name is the beginning of another's. *)
Theorem C64_unit_prefix_refuted : exists likes, likes = ["j"; "j2"] /\ unit_of report_units (with_underscore (suffixes_of likes)) "gamma_j2" "gamma_j21" = "" /\
  unit_of report_units (with_underscore (suffixes_of likes)) "gamma_j" "gamma_j1" = "m s$-1$".
Proof. exact (ex_intro _ _ (conj eq_refl (conj eq_refl eq_refl))). Qed.
Print Assumptions C64_unit_prefix_refuted.

(** Which names the last group of rows is made from. *)
Theorem C64_extra_names : forall ep names p, In p (extra_names ep names) <->
  (exists o, In o ["gamma"; "dvdt"; "curv"; "jit"] /\ ((In p ep /\ occurs o p) \/ (p = o /\ forall q, In q ep -> ~ occurs o q))) \/
  (In p names /\ exists r, p = "gp_" ++ r).
Proof. exact extra_in. Qed.
Print Assumptions C64_extra_names.

Example C64_extra_names_ex : In "dvdt" (extra_names ["gamma_j"; "jit_j"] ["per1"]) /\ In "gp_per" (extra_names [] ["gp_per"]) /\
  ~ In "c1_temp_j" (extra_names ["gamma_j"; "jit_j"] ["per1"; "c1_temp_j"]).
Proof. repeat split; cbn; intuition discriminate. Qed.

(** An instrument called curv: its own parameters take the place of the curvature. *)
Theorem C64_curvature_refuted : exists ep, ep = ["gamma_curv"; "jit_curv"] /\ extra_names ep ["dvdt"; "curv"] = ["gamma_curv"; "dvdt"; "jit_curv"; "gamma_curv"; "jit_curv"].
Proof. exact (ex_intro _ _ (conj eq_refl eq_refl)). Qed.
Print Assumptions C64_curvature_refuted.

(** The first group is meant for the parameters of the fit; it repeats the second one. *)
Theorem C64_fitting_rows : forall C Q T N chains quant maxparams latex units suffixes geterr of_quantiles show h ps h' q n ep names a b c,
  report_params h ps = Ok (h', Some q) ->
  tab_params C Q T N chains quant maxparams latex units suffixes geterr of_quantiles show (fitting_basis q) n ep names = Ok (a, b, c) -> a = b.
Proof. exact fitting_rows. Qed.
Print Assumptions C64_fitting_rows.

Theorem C64_fitting_refuted : exists h' q, b_name (ps_basis xt_ps) = "per tc secosw sesinw k" /\
  In "secosw1" (dkeys (ps_items xt_ps)) /\ report_params (xt_heap (1/2)%R) xt_ps = Ok (h', Some q) /\ ~ In "secosw" (split (fitting_basis q)).
Proof. exact report_example. Qed.
Print Assumptions C64_fitting_refuted.
