(** Property theorems C75: the points of a panel, their labels and colours. *)
From Coq Require Import Reals String Arith Bool List.
From Verif Require Import Py FastBinSpec TelPlot TelPlotSpec TelPlotThms.
Import ListNotations.
Open Scope string_scope.

(** * C75 *)
(** A panel draws every measurement once, under its own instrument, each instrument in one series. *)
Theorem C75_points : forall X (x : list X) y e tel fm rv, length x = length tel -> length y = length tel -> length e = length tel ->
  formats_wf fm -> rms_given rv tel -> colours_suffice fm tel ->
  exists fm' ss, mtelplot x y e tel fm rv = Ok (fm', ss) /\ NoDup (map s_tel ss) /\ (forall t, In t (map s_tel ss) <-> In t tel) /\
    forall s, In s ss -> of_tel tel (s_tel s) x (s_x s) /\ of_tel tel (s_tel s) y (s_y s) /\ of_tel tel (s_tel s) e (s_e s).
Proof. exact mtel_points. Qed.
Print Assumptions C75_points.

Example C75_points_ex : formats_wf xp_fm /\ rms_given [] xp_tel /\ colours_suffice xp_fm xp_tel /\ of_tel ["j"; "k"; "j"] "j" [1; 2; 3]%R [1; 3]%R.
Proof.
  split; [exact xp_wf|]. split; [now left|]. split; [exact xp_suffice|]. split; [reflexivity|]. exists [("j", 1%R); ("j", 3%R)]. split; [|reflexivity].
  apply picks_yes; [reflexivity|]. apply picks_no; [discriminate|]. apply picks_yes; [reflexivity|constructor].
Qed.

(** Full claim: the call always succeeds.  It fails when more than nine instruments need a colour. *)
Theorem C75_colours_refuted : forall X (x : list X) y e tel fm rv, length x = length tel -> length y = length tel -> length e = length tel ->
  formats_wf fm -> rms_given rv tel -> ~ colours_suffice fm tel -> mtelplot x y e tel fm rv = Err IndexError.
Proof. exact mtel_run_out. Qed.
Print Assumptions C75_colours_refuted.

Example C75_colours_refuted_ex : ~ colours_suffice [] ["t0"; "t1"; "t2"; "t3"; "t4"; "t5"; "t6"; "t7"; "t8"; "t9"].
Proof. exact xp_ten. Qed.

(** The legend has the user's name for an instrument, else the program's, else the name in the data; with the scatter if asked for. *)
Theorem C75_legend : forall X (x : list X) y e tel fm rv fm' ss s, formats_wf fm -> rms_given rv tel -> mtelplot x y e tel fm rv = Ok (fm', ss) -> In s ss ->
  exists name note r, dget (s_kw s) "label" = Some (name ++ note) /\ legend_name fm (s_tel s) name /\ rms_note note r /\
    (rv = [] -> r = 0%R) /\ (rv <> [] -> dget rv (s_tel s) = Some r).
Proof. exact mtel_legend. Qed.
Print Assumptions C75_legend.

Example C75_legend_ex : legend_name xp_fm "spec2" "spec2" /\ legend_name xp_fm "hires_rk" "HIRES pre 2004" /\ legend_name [("j", [("label", "J")])] "j" "J".
Proof. exact xp_legend. Qed.

(** What the user wrote is used; known instruments have their colours; all others differ from each other. *)
Theorem C75_colours : forall X (x : list X) y e tel fm rv fm' ss s, formats_wf fm -> rms_given rv tel -> mtelplot x y e tel fm rv = Ok (fm', ss) -> In s ss ->
  (forall o v, o <> "label" -> wrote fm (s_tel s) o v -> dget (s_kw s) o = Some v) /\
  (forall n c, no_format fm (s_tel s) -> known (s_tel s) n c -> dget (s_kw s) "color" = Some c) /\
  (uncoloured fm (s_tel s) -> exists c, dget (s_kw s) "color" = Some c /\ In c COLOURS /\
     forall s', In s' ss -> s_tel s' <> s_tel s -> uncoloured fm (s_tel s') -> dget (s_kw s') "color" <> Some c).
Proof. exact mtel_colours. Qed.
Print Assumptions C75_colours.

Example C75_colours_ex : exists fm' ss, mtelplot [1; 2]%R [5; 6]%R [1; 1]%R xp_tel xp_fm [] = Ok (fm', ss) /\ length ss = 2%nat /\
  uncoloured xp_fm "spec1" /\ uncoloured xp_fm "spec2" /\ wrote xp_fm "spec1" "fmt" "s".
Proof.
  do 2 eexists. split; [exact (xp_panel xp_fm "purple" (or_introl (conj eq_refl eq_refl)))|]. split; [reflexivity|]. split; [exact (proj1 xp_uncoloured)|].
  split; [exact (proj2 xp_uncoloured)|]. exists [("fmt", "s")]. split; reflexivity.
Qed.

(** Full claim: an instrument looks the same in all panels of a figure.  False: the first panel writes colours into
    the user's formats, and the next panel starts again with the first colour. *)
Theorem C75_panels_refuted : exists fm tel x y e, formats_wf fm /\ exists fm1 ss1 fm2 ss2 s1 s2 s3,
  @mtelplot R x y e tel fm [] = Ok (fm1, ss1) /\ @mtelplot R x y e tel fm1 [] = Ok (fm2, ss2) /\ In s1 ss1 /\ In s2 ss2 /\ s_tel s1 = s_tel s2 /\
  dget (s_kw s1) "color" <> dget (s_kw s2) "color" /\ In s3 ss2 /\ s_tel s3 <> s_tel s2 /\ dget (s_kw s3) "color" = dget (s_kw s2) "color" /\ fm1 <> fm.
Proof. exact recoloured. Qed.
Print Assumptions C75_panels_refuted.

(** True when all formats given for the instruments name a colour: any two panels then agree, and the formats stay. *)
Theorem C75_panels_partial : forall X Y (x : list X) y e tel (x2 : list Y) y2 e2 tel2 fm rv rv2 fm1 ss1 fm2 ss2, formats_wf fm -> settled fm tel ->
  rms_given rv tel -> rms_given rv2 tel2 -> (forall t, In t tel <-> In t tel2) ->
  mtelplot x y e tel fm rv = Ok (fm1, ss1) -> mtelplot x2 y2 e2 tel2 fm1 rv2 = Ok (fm2, ss2) ->
  fm1 = fm /\ fm2 = fm /\ forall s1 s2 o, In s1 ss1 -> In s2 ss2 -> s_tel s1 = s_tel s2 -> o <> "label" -> dget (s_kw s1) o = dget (s_kw s2) o.
Proof. exact mtel_same_formats. Qed.
Print Assumptions C75_panels_partial.

Example C75_panels_partial_ex : settled [("spec1", [("fmt", "s"); ("color", "orange")])] xp_tel /\ forall t, In t xp_tel <-> In t (xp_tel ++ xp_tel)%list.
Proof. exact xp_settled. Qed.

(** ... and always from the second panel on. *)
Theorem C75_settles_partial : forall X (x : list X) y e tel fm rv fm1 ss1, formats_wf fm -> rms_given rv tel -> mtelplot x y e tel fm rv = Ok (fm1, ss1) ->
  settled fm1 tel /\ formats_wf fm1.
Proof. exact @mtel_settles. Qed.
Print Assumptions C75_settles_partial.

Example C75_settles_partial_ex : exists fm1 ss1, mtelplot [1; 2]%R [5; 6]%R [1; 1]%R xp_tel xp_fm [] = Ok (fm1, ss1) /\ ~ settled xp_fm xp_tel /\ settled fm1 xp_tel.
Proof.
  do 2 eexists. split; [exact (xp_panel xp_fm "purple" (or_introl (conj eq_refl eq_refl)))|]. split; [|exact (proj1 xp_settled)].
  intro S. destruct (S "spec1" [("fmt", "s")]) as (c & Ec); [now left|reflexivity|discriminate].
Qed.
