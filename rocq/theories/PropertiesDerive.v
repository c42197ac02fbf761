(** Property theorems C66: the derived parameters. *)
From Coq Require Import ZArith Reals String Arith Bool Lia Lra List.
From Verif Require Import Py PyFloat Params ParamsSpec Basis BasisThms Mass MassProofs PostProc PostProcSpec PostProcThms Derive DeriveSpec DeriveProofs DeriveThms.
Import ListNotations.
Open Scope R_scope.
Open Scope string_scope.

(** * C66 *)
(** Mass, axis and mass ratio of a planet are computed sample by sample from the elements of that planet in
    that sample and the stellar mass drawn for it.  If no sample has a heavy planet, the mass is the one that
    gives the semi-amplitude in the limit of light planets; if one has, all masses solve the two-body relation.
    The axis fulfils Kepler's third law with the mass of star and planet together. *)
Theorem C66_values_partial : forall c root h ps nplanets chains stellar draw_m planet draw_r cols out q,
  derive c root h ps nplanets chains stellar draw_m planet draw_r = Ok (Some ((cols, out), q)) -> forall b names stl loc scale,
  params_ok h ps b names -> uconst_ok c -> (nplanets <= ps_num ps)%nat ->
  stellar = Some stl -> dget stl "mstar" = Some loc -> dget stl "mstar_err" = Some scale -> length (draw_m loc scale) = t_len chains ->
  forall n, (1 <= n <= nplanets)%nat ->
  (forall i x, (i < t_len chains)%nat -> sample_row h ps chains draw_m b names loc scale n i x -> row_ok x) ->
  exists mp a mu, dget cols (key "mpsini" n) = Some mp /\ dget cols (key "a" n) = Some a /\ dget cols (key "musini" n) = Some mu /\
    length mp = t_len chains /\ length a = t_len chains /\ length mu = t_len chains /\
    exists xs, length xs = t_len chains /\ (forall i d, (i < t_len chains)%nat -> sample_row h ps chains draw_m b names loc scale n i (nth i xs d)) /\
      ((forall x, In x xs -> ~ massive c x) ->
        forall i d, (i < t_len chains)%nat -> let x := nth i xs d in
          semi_amplitude c "earth" (nth i mp 0) (r_P x) (r_M x) (r_e x) = Ok (r_K x) /\ laws c x (nth i mp 0) (nth i a 0) (nth i mu 0)) /\
      ((exists x, In x xs /\ massive c x) -> (forall x, In x xs -> root_finds c root x) ->
        forall i d, (i < t_len chains)%nat -> let x := nth i xs d in
          two_body c x (nth i mp 0 * c_mearth c) /\ laws c x (nth i mp 0) (nth i a 0) (nth i mu 0)).
Proof. exact derive_values. Qed.
Print Assumptions C66_values_partial.

Example C66_values_ex : forall c root, exists cols out q,
  derive c root ex_heap ex_post_ps 1 ex_chains (Some ex_stellar) ex_draw_m (Some ex_planet) ex_draw_r = Ok (Some ((cols, out), q)) /\
  params_ok ex_heap ex_post_ps "per tp e w k" ex_names /\ dget ex_stellar "mstar" = Some 1 /\ dget ex_stellar "mstar_err" = Some (1 / 2) /\
  length (ex_draw_m 1 (1 / 2)) = t_len ex_chains /\
  (forall i x, (i < t_len ex_chains)%nat -> sample_row ex_heap ex_post_ps ex_chains ex_draw_m "per tp e w k" ex_names 1 (1 / 2) 1 i x -> row_ok x).
Proof.
  intros c root. destruct (ex_derive c root) as (cols & out & q & mp & rho & E & _). exists cols, out, q. split; [exact E|]. split; [exact ex_params_ok|].
  repeat (split; [reflexivity|]). exact ex_rows_ok.
Qed.

(** The density is mass over volume, for the radius drawn for the same sample. *)
Theorem C66_density_partial : forall c root h ps nplanets chains stellar draw_m planet draw_r cols out q,
  derive c root h ps nplanets chains stellar draw_m planet draw_r = Ok (Some ((cols, out), q)) -> forall b names stl loc scale,
  params_ok h ps b names -> uconst_ok c -> (nplanets <= ps_num ps)%nat ->
  stellar = Some stl -> dget stl "mstar" = Some loc -> dget stl "mstar_err" = Some scale -> length (draw_m loc scale) = t_len chains ->
  forall n rloc rscale, (1 <= n <= nplanets)%nat -> has_radius planet n rloc rscale -> length (draw_r n rloc rscale) = t_len chains ->
  (forall i x, (i < t_len chains)%nat -> sample_row h ps chains draw_m b names loc scale n i x -> row_ok x) ->
  exists mp rho, dget cols (key "mpsini" n) = Some mp /\ dget cols (key "rhop" n) = Some rho /\ dget cols (key "rp" n) = Some (draw_r n rloc rscale) /\ length rho = t_len chains /\
    forall i, (i < t_len chains)%nat -> let r := nth i (draw_r n rloc rscale) 0 in r <> 0 ->
      nth i rho 0 * 1000 * (4 / 3 * PI * (r * c_rearth c) ^ 3) = nth i mp 0 * c_mearth c.
Proof. exact derive_density. Qed.
Print Assumptions C66_density_partial.

Example C66_density_ex : has_radius (Some ex_planet) 1 1 1 /\ length (ex_draw_r 1 1 1) = t_len ex_chains /\ forall i, (i < 2)%nat -> nth i (ex_draw_r 1 1 1) 0 <> 0.
Proof.
  split; [exists ex_planet; repeat split; reflexivity|]. split; [reflexivity|]. intros i Hi. assert (i = 0 \/ i = 1)%nat as [-> | ->] by lia; cbn; lra.
Qed.

(** Densities are not always positive: drawn radii are used with their sign (drawn stellar masses are not). *)
Theorem C66_density_positive_refuted : forall c root, uconst_ok c -> (forall f x, 0 < root f x) -> exists cols out q rho y,
  derive c root ex_heap ex_post_ps 1 ex_chains (Some ex_stellar) ex_draw_m (Some ex_planet) ex_draw_r = Ok (Some ((cols, out), q)) /\
  dget cols "rhop1" = Some rho /\ In y rho /\ y < 0.
Proof. exact density_negative. Qed.
Print Assumptions C66_density_positive_refuted.

Example C66_density_positive_refuted_ex : uconst_ok (mkUconst 1 1 1 1 1 1 1) /\ forall (f : R -> R) (x : R), 0 < (fun _ _ => 1) f x.
Proof. split; [unfold uconst_ok; cbn; lra|intros; lra]. Qed.

(** Each planet has three derived columns in the output, and its density if its radius is given; the summary holds
    the quantiles of exactly those columns; the columns of the chain are kept unless they have the name of a derived one. *)
Theorem C66_columns : forall c root h ps nplanets chains stellar draw_m planet draw_r cols out q,
  derive c root h ps nplanets chains stellar draw_m planet draw_r = Ok (Some ((cols, out), q)) ->
  (exists ll, Forall2 (listed_for planet) (seq 1 nplanets) ll /\ out = concat ll) /\
  (forall k, In k out -> exists l, dget cols k = Some l /\
     dget q k = Some (quantile (159 / 1000) l, quantile (1 / 2) l, quantile (841 / 1000) l)) /\
  (forall k, In k (dkeys q) -> In k out) /\
  (forall k, (forall n p, (1 <= n <= nplanets)%nat -> In p DNAMES -> k <> key p n) -> dget cols k = dget (t_cols chains) k).
Proof. exact derive_columns. Qed.
Print Assumptions C66_columns.

Example C66_columns_ex : forall c root, exists cols out q,
  derive c root ex_heap ex_post_ps 1 ex_chains (Some ex_stellar) ex_draw_m (Some ex_planet) ex_draw_r = Ok (Some ((cols, out), q)) /\
  out = ["mpsini1"; "a1"; "musini1"; "rhop1"].
Proof. intros c root. destruct (ex_derive c root) as (cols & out & q & mp & rho & E & O & _). exists cols, out, q. auto. Qed.

(** Nothing is derived if and only if the set-up file has no stellar parameters. *)
Theorem C66_no_star : forall c root h ps nplanets chains stellar draw_m planet draw_r,
  derive c root h ps nplanets chains stellar draw_m planet draw_r = Ok None <-> stellar = None.
Proof. exact no_star. Qed.
Print Assumptions C66_no_star.

Example C66_no_star_ex : derive (mkUconst 1 1 1 1 1 1 1) (fun _ x => x) ex_heap ex_post_ps 1 ex_chains None ex_draw_m None ex_draw_r = Ok None.
Proof. now apply C66_no_star. Qed.
