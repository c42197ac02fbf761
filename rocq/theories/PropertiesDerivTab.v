(** Property theorems C68: the table of derived parameters. *)
From Coq Require Import Reals String Arith Bool Lia Lra List Permutation.
From Flocq Require Import Core.Raux.
From Verif Require Import Py Params Stats PostProc ParTable ParTableSpec DerivTab DerivTabSpec DerivTabProofs DerivTabThms.
Import ListNotations.
Open Scope R_scope.
Open Scope string_scope.

(** * C68 *)
(** DerivedPlot labels the columns of mass, density and axis of every planet that have samples without gaps, planet by planet. *)
Theorem C68_labels_partial : forall n letters nulls chains dp, derived_plot n letters nulls chains = Ok dp ->
  map d_label (snd dp) = filter (usable chains nulls) (numbered ["mpsini"; "rhop"; "a"] n).
Proof. exact plot_labels. Qed.
Print Assumptions C68_labels_partial.

(** Each has symbol, letter and unit of its own, and numbers in this unit; a mass is in Jupiter masses iff its median exceeds 100 Earth masses. *)
Theorem C68_units_partial : forall n letters nulls chains dp, derived_plot n letters nulls chains = Ok dp -> forall p i col,
  In p ["mpsini"; "rhop"; "a"] -> (1 <= i <= n)%nat -> dget chains (key p i) = Some col -> ~ In (key p i) nulls ->
  exists l u col', dletter letters i l /\ dget (fst dp) (key p i) = Some col' /\ shown_as p col col' u /\ In (mkDlabel (key p i) (Some (dtex p l)) u) (snd dp).
Proof. exact plot_entry. Qed.
Print Assumptions C68_units_partial.

(** No other column changes. *)
Theorem C68_keeps_partial : forall n letters nulls chains dp, derived_plot n letters nulls chains = Ok dp -> forall k,
  (forall i, (1 <= i <= n)%nat -> k <> key "mpsini" i) \/ In k nulls -> dget (fst dp) k = dget chains k.
Proof. exact plot_keeps. Qed.
Print Assumptions C68_keeps_partial.

(** The quantiles of a rescaled column are the rescaled quantiles. *)
Theorem C68_quantiles : forall q k l, 0 < k -> quantile q (map (fun x => x * k) l) = quantile q l * k.
Proof. exact quantile_scale. Qed.
Print Assumptions C68_quantiles.

Example C68_quantiles_ex : quantile (1 / 2) (map (fun x => x * 3) [7]) = 21.
Proof.
  rewrite C68_quantiles by lra. unfold quantile. cbn [length Nat.sub INR sort insert]. replace (0 * (1 / 2)) with (IZR 0) by lra. rewrite Zfloor_IZR. cbn. lra.
Qed.

(** The table has one row for each such column, with symbol, unit, the three quantiles of the samples shown, and the value at the first sample of highest probability. *)
Theorem C68_table_partial : forall T setorder geterr of_quantiles show n letters nulls chains maxparams latex units suffixes lp,
  set_order setorder -> formats (list R) (R * R * R) T R geterr show -> (n <= 9)%nat ->
  (forall i, (1 <= i <= n)%nat -> exists l, dletter letters i l) -> dget chains "lnprobability" = Some lp -> lp <> [] ->
  (forall p, In p ["mpsini"; "rhop"; "a"] -> ~ In p (dkeys chains) /\ ~ In p (dkeys units)) ->
  (forall k, In k (numbered ["mpsini"; "rhop"; "a"] n) -> ~ In k (dkeys latex)) ->
  exists chains' rows j,
    tab_derived T setorder geterr of_quantiles show n letters nulls chains maxparams latex units suffixes = Ok (chains', rows) /\
    Permutation (map w_key rows) (filter (usable chains nulls) (numbered ["mpsini"; "rhop"; "a"] n)) /\ first_max lp j /\
    forall r, In r rows -> exists p i col col' l, In p ["mpsini"; "rhop"; "a"] /\ (1 <= i <= n)%nat /\ w_key r = key p i /\ dget chains (key p i) = Some col /\ ~ In (key p i) nulls /\
      shown_as p col col' (w_unit r) /\ dletter letters i l /\ w_tex r = dtex p l /\
      let q := (quantile (159 / 1000) col', quantile (1 / 2) col', quantile (841 / 1000) col') in
      show (of_quantiles q) (nth j col' 0) (Some q) = Ok (w_text r).
Proof. exact derived_table. Qed.
Print Assumptions C68_table_partial.

Example C68_table_ex : set_order (nodup string_dec) /\ formats (list R) (R * R * R) unit R (fun _ => Ok tt) (fun _ _ _ => Ok "") /\
  (forall i, (1 <= i <= 2)%nat -> exists l, dletter None i l) /\ dget xe_chains "lnprobability" = Some [(-2); (-1); (-3)] /\
  (forall p, In p ["mpsini"; "rhop"; "a"] -> ~ In p (dkeys xe_chains) /\ ~ In p (dkeys report_units)) /\
  filter (usable xe_chains ["rhop1"]) (numbered ["mpsini"; "rhop"; "a"] 2) = ["mpsini1"; "a1"; "mpsini2"] /\ median [900; 1000; 1100] = 1000.
Proof. exact xe_hyps. Qed.

(** With ten planets the row of the first planet's axis appears ten times. *)
Theorem C68_tenth_refuted : exists rows, xd_tab = Ok (xd_chains, rows) /\ count_occ string_dec (map w_key rows) "a1" = 10%nat.
Proof. exact xd_rows. Qed.
Print Assumptions C68_tenth_refuted.

(** With more than ten planets and no letters given, the eleventh raises. *)
Theorem C68_letters_refuted : forall n nulls chains, (10 < n)%nat -> derived_plot n None nulls chains = Err (KeyError "11").
Proof. exact eleven. Qed.
Print Assumptions C68_letters_refuted.

(** A second table from the same samples shows Jupiter masses and calls them Earth masses. *)
Theorem C68_twice_refuted : forall n letters nulls chains dp i col, derived_plot n letters nulls chains = Ok dp -> (1 <= i <= n)%nat ->
  dget chains (key "mpsini" i) = Some col -> ~ In (key "mpsini" i) nulls -> 100 < median col <= 31746 ->
  exists dp2 e, derived_plot n letters nulls (fst dp) = Ok dp2 /\ In e (snd dp2) /\ d_label e = key "mpsini" i /\ d_unit e = EARTH /\
    dget (fst dp2) (key "mpsini" i) = Some (map (fun x => x * (315 / 100000)) col).
Proof. exact twice. Qed.
Print Assumptions C68_twice_refuted.

Example C68_twice_ex : exists dp, derived_plot 2 None ["rhop1"] xe_chains = Ok dp /\ dget xe_chains (key "mpsini" 2) = Some [900; 1000; 1100] /\ median [900; 1000; 1100] = 1000.
Proof.
  destruct xe_hyps as (_ & _ & H & _ & _ & _ & M). destruct (derived_plot_total 2 None ["rhop1"] xe_chains H) as [dp E]. exists dp. auto.
Qed.

(** Solar masses are never used. *)
Theorem C68_sun_refuted : forall n letters nulls chains dp, derived_plot n letters nulls chains = Ok dp -> forall e, In e (snd dp) -> d_unit e <> SUN.
Proof. exact never_sun. Qed.
Print Assumptions C68_sun_refuted.
