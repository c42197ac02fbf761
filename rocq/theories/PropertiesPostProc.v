(** Property theorems C65: the summary made from the samples. *)
From Coq Require Import ZArith Reals String Arith Bool Lia Lra List.
From Verif Require Import Py PyFloat Params ParamsSpec Basis BasisThms Likelihood LikeSpec Fitting FittingProofs Format Stats StatsProofs
  PostProc PostProcSpec PostProcProofs PostProcThms.
Import ListNotations.
Open Scope R_scope.
Open Scope string_scope.

(** * C65 *)
(** Every parameter and every orbital element is in the summary, and nothing else.  A parameter is
    summarised from its own samples (a fixed one from its value) and its value after the fit; an element
    is computed sample by sample from the parameters of its planet, its best value from the values after
    the fit. *)
Theorem C65_reported_partial : forall dexp ends0 fuel lp stats ps idx optimiser chains s s' out,
  postprocess dexp ends0 fuel lp stats ps idx optimiser chains s = (s', Ok out) -> forall b names val,
  params_ok (f_heap s) ps b names -> objects_ok (f_heap s) (ps_items ps) ->
  (forall n p, (1 <= n <= ps_num ps)%nat -> In p names -> value_in idx (f_rows s') (key p n) (val n p)) ->
  (forall k, In k (dkeys (ps_items ps)) -> ~ element_key (ps_num ps) k ->
     exists col best o, samples_of (ps_items ps) idx (f_rows s) chains k col /\ value_in idx (f_rows s') k best /\
       reported_for dexp ends0 fuel col best o /\ dget out k = Some o) /\
  (forall n p, (1 <= n <= ps_num ps)%nat -> In p FIVE ->
     exists col o, length col = t_len chains /\
       (forall i, (i < t_len chains)%nat -> exists vals,
          (forall q, In q names -> exists c, samples_of (ps_items ps) idx (f_rows s) chains (key q n) c /\ vals q = nth i c 0) /\
          nth i col 0 = meaning (els b vals) p) /\
       reported_for dexp ends0 fuel col (meaning (els b (val n)) p) o /\ dget out (key p n) = Some o) /\
  (forall k, In k (dkeys out) <-> In k (dkeys (ps_items ps)) \/ element_key (ps_num ps) k).
Proof. exact post_main. Qed.
Print Assumptions C65_reported_partial.

Example C65_reported_ex : forall dexp ends0 fuel, exists s' out,
  postprocess dexp ends0 fuel ex_lp ex_stats ex_post_ps ex_idx (fun x0 => Evaluate x0 (fun _ => Report x0)) ex_chains ex_s = (s', Ok out) /\
  params_ok (f_heap ex_s) ex_post_ps "per tp e w k" ex_names /\ objects_ok (f_heap ex_s) (ps_items ex_post_ps) /\
  (forall n p, (1 <= n <= 1)%nat -> In p ex_names -> value_in ex_idx (f_rows s') (key p n)
     (if String.eqb p "per" then 10 else if String.eqb p "tp" then 1 else if String.eqb p "e" then 0 else if String.eqb p "w" then 2 else 4)) /\
  dget out "k1" = Some (0, 4, 4) /\ dget out "per1" = Some (0, 10, 10).
Proof.
  intros dexp ends0 fuel. destruct (ex_post dexp ends0 fuel) as (s' & out & E & V & _ & K & P). exists s', out. split; [exact E|]. split; [exact ex_params_ok|].
  split; [exact ex_objects_ok|]. split; [|auto]. rewrite V. apply ex_values.
Qed.

(** The elements of a sample have the meaning of its parameters. *)
Theorem C65_elements : forall b names vals, In (b, names) FIT_BASES -> values_in_range names vals ->
  forall p, In p names -> meaning (els b vals) p = vals p.
Proof. exact els_val. Qed.
Print Assumptions C65_elements.

Example C65_elements_ex : meaning (els "per tc se w k" (fun _ => 1 / 2)) "se" = 1 / 2.
Proof. apply (C65_elements _ ["per"; "tc"; "se"; "w"; "k"]); [cbn; tauto|intros _; lra|cbn; tauto]. Qed.

(** A parameter held fixed is reported without uncertainty and with its own value; the best value is
    the same one unless the likelihood writes it. *)
Theorem C65_fixed : forall dexp ends0 fuel lp stats ps idx optimiser chains s s' out b names val,
  postprocess dexp ends0 fuel lp stats ps idx optimiser chains s = (s', Ok out) ->
  params_ok (f_heap s) ps b names -> objects_ok (f_heap s) (ps_items ps) ->
  (forall n p, (1 <= n <= ps_num ps)%nat -> In p names -> value_in idx (f_rows s') (key p n) (val n p)) ->
  forall k x, fixed_at (ps_items ps) idx (f_rows s) k x -> ~ element_key (ps_num ps) k ->
  exists best, value_in idx (f_rows s') k best /\ dget out k = Some (0, x, best) /\
    forall G, fit_ready G lp stats (ps_items ps) idx chains s -> (forall i, dget idx k = Some i -> ~ G i) -> ~ In k (dkeys (t_cols chains)) -> best = x.
Proof. exact post_fixed. Qed.
Print Assumptions C65_fixed.

Example C65_fixed_ex : fixed_at (ps_items ex_post_ps) ex_idx (f_rows ex_s) "gamma_j" 5 /\ ~ element_key (ps_num ex_post_ps) "gamma_j" /\
  fit_ready (fun i => i = 7%nat) ex_lp ex_stats (ps_items ex_post_ps) ex_idx ex_chains ex_s.
Proof.
  split; [|split; [|exact ex_fit_ready]].
  - split; [cbn; tauto|]. exists 7%nat, (ex_row 5 false true). repeat split; reflexivity.
  - intros (p & n & Hp & Hn & E). cbn in Hp. repeat (destruct Hp as [<-|Hp]; [discriminate E|]). easy.
Qed.

(** The fit is started at the medians of the samples, leaves the fixed values alone, and the best values
    are those of the last point it tried. *)
Theorem C65_start : forall dexp ends0 fuel lp stats ps idx optimiser chains s s' out,
  postprocess dexp ends0 fuel lp stats ps idx optimiser chains s = (s', Ok out) -> forall G,
  LikeHist.frame_ok G (f_rows s) lp -> LikeHist.blind_to G (f_rows s) lp -> LikeHist.frame_ok G (f_rows s) stats -> (forall i, G i -> ~ is_free (f_rows s) i) ->
  LikeProofs.cache_fresh (f_cp s) (f_rows s) -> LikeProofs.cache_fresh (f_cl s) (f_rows s) -> objects_ok (f_heap s) (ps_items ps) -> NoDup (dkeys (t_cols chains)) ->
  (forall k k' i, In k (dkeys (ps_items ps)) -> In k' (dkeys (ps_items ps)) -> dget idx k = Some i -> dget idx k' = Some i -> k = k') ->
  exists v1 x0, medians_in (ps_items ps) idx (t_cols chains) (f_rows s) v1 /\ holds_at v1 x0 /\
    (forall i, ~ is_free (f_rows s) i -> ~ G i -> option_map r_val (nth_error (f_rows s') i) = option_map r_val (nth_error v1 i)) /\
    match rev (trace lp (optimiser x0) (v1, f_cl s)) with
    | [] => holds_at (f_rows s') x0
    | (x, y) :: _ => holds_at (f_rows s') x
    end.
Proof. exact post_fit. Qed.
Print Assumptions C65_start.

Example C65_start_ex : exists v1 x0, medians_in (ps_items ex_post_ps) ex_idx (t_cols ex_chains) (f_rows ex_s) v1 /\ holds_at v1 x0.
Proof.
  destruct (ex_post (fun _ => 0%Z) (fun _ => true) 0) as (s' & out & E & _). destruct ex_fit_ready as [A1 A2 A3 A4 A5 A6 A7 A8].
  destruct (C65_start _ _ _ _ _ _ _ _ _ _ _ _ E _ A1 A2 A3 A4 A5 A6 ex_objects_ok A7 A8) as (v1 & x0 & M & H & _). eauto.
Qed.

(** Quantiles interpolate linearly between neighbouring order statistics; the median is the usual one. *)
Theorem C65_quantile : forall q l, l <> [] -> 0 <= q <= 1 ->
  let h := INR (length l - 1) * q in
  exists i lo, (i < length l)%nat /\ INR i <= h < INR i + 1 /\ is_rank l i lo /\
    ((i + 1 < length l)%nat -> exists hi, is_rank l (i + 1) hi /\ lo <= hi /\ quantile q l = lo + (h - INR i) * (hi - lo)) /\
    (i + 1 = length l -> quantile q l = lo)%nat.
Proof. exact quantile_spec. Qed.
Print Assumptions C65_quantile.

Example C65_quantile_ex : quantile (1 / 2) [7; 7; 7] = 7.
Proof. apply (quantile_const (1 / 2) 7 3); [lia|lra]. Qed.

Theorem C65_median : forall l, l <> [] -> quantile (1 / 2) l = median l.
Proof. exact quantile_half. Qed.
Print Assumptions C65_median.

Example C65_median_ex : quantile (1 / 2) [1; 2; 4] = 2.
Proof.
  rewrite C65_median by discriminate. unfold median. assert (sort [1; 2; 4] = [1; 2; 4]) as ->; [|reflexivity].
  cbn [sort insert]. rewrite (proj2 (PyFacts.rleb_true 2 4)) by lra. cbn [insert]. rewrite (proj2 (PyFacts.rleb_true 1 2)) by lra. reflexivity.
Qed.

(** False in general: the median reported for an angle is near its samples. *)
Theorem C65_angle_refuted : exists col, (forall x, In x col -> cos x < 0) /\
  forall dexp ends0 fuel best o, reported_for dexp ends0 fuel col best o -> cos (snd (fst o)) = 1.
Proof. exact angle_wrong. Qed.
Print Assumptions C65_angle_refuted.

(** False in general: the median and best value of a marginalised offset go together. *)
Theorem C65_offset_refuted : exists G ps idx lp stats optimiser chains s b names,
  fit_ready G lp stats (ps_items ps) idx chains s /\ params_ok (f_heap s) ps b names /\ objects_ok (f_heap s) (ps_items ps) /\
  forall dexp ends0 fuel, exists s' out k med best, postprocess dexp ends0 fuel lp stats ps idx optimiser chains s = (s', Ok out) /\
    dget out k = Some (0, med, best) /\ value_in idx (f_rows s') k best /\ med <> best.
Proof. exact offset_stale. Qed.
Print Assumptions C65_offset_refuted.
