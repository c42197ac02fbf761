(** C83: the text of a likelihood or posterior.  One full statement is that it shows, one per line, the value of every
    parameter in the vector, its uncertainty and whether it varies, with the orbital elements that are not parameters, and
    that printing changes nothing.  Lines can be told apart into their fields if numbers leave a blank in their columns, which
    long uncertainties do not; printing writes the vector into the parameters; several likelihoods lose their uncertainties. *)
From Coq Require Import Reals String Ascii Arith Bool List.
From Verif Require Import Py Params Basis ParamsSpec BasisNum BasisModel BasisThms FitText FitTextSpec FitTextProofs FitTextThms.
Import ListNotations.
Open Scope string_scope.

Theorem C83_text_partial : forall g tb u idx v h ps b names (E : nat -> elements), params_ok h ps b names -> objects_ok h (ps_items ps) ->
  (forall k i, In k (dkeys (ps_items ps)) -> dget idx k = Some i -> (i < length v)%nat) ->
  (forall n, (1 <= n <= ps_num ps)%nat -> in_domain (E n) /\ forall p, In p names -> exists i r, dget idx (key p n) = Some i /\ nth_error v i = Some r /\ r_val r = Some (meaning (E n) p)) ->
  fits g u -> (forall k, In k (dkeys (ps_items ps)) -> word k) ->
  exists h1 text rows E', like_repr g tb u idx v h ps = Ok (h1, text) /\
  map split (lines text) = (head u :: map (fields g) rows ++ [[]])%list /\ NoDup (map sh_name rows) /\
  filter (dmem (ps_items ps)) (map sh_name rows) = filter (fun k => existsb (String.eqb k) (map sh_name rows)) (dkeys (ps_items ps)) /\
  (forall k p, get_param h (ps_items ps) k = Some p ->
     match dget idx k, p_value p with
     | None, None => ~ In k (map sh_name rows)
     | i, x => exists e, In e rows /\ sh_name e = k /\ uncertainty u k (sh_err e) /\ sh_flag e = flag (p_vary p) /\
                 match i with Some i => exists r, nth_error v i = Some r /\ displayed tb k (r_val r) (sh_value e) | None => displayed tb k x (sh_value e) end
     end) /\
  (forall n, (1 <= n <= ps_num ps)%nat -> recovered names (E n) (E' n) /\ forall p, In p ["per"; "tp"; "e"; "w"; "k"] -> ~ In (key p n) (dkeys (ps_items ps)) ->
     exists e, In e rows /\ sh_name e = key p n /\ uncertainty u (key p n) (sh_err e) /\ sh_flag e = [] /\ displayed tb (key p n) (Some (meaning (E' n) p)) (sh_value e)) /\
  (forall k, In k (map sh_name rows) -> In k (dkeys (ps_items ps)) \/ exists p n, In p ["per"; "tp"; "e"; "w"; "k"] /\ (1 <= n <= ps_num ps)%nat /\ k = key p n).
Proof. exact text_shows. Qed.
Print Assumptions C83_text_partial.

Example C83_text_ex : params_ok xx_h xx_ps "per tc e w k" xx_names /\ objects_ok xx_h xx_items /\
  (forall k i, In k (dkeys xx_items) -> dget xx_idx k = Some i -> (i < length xx_v)%nat) /\
  (forall n, (1 <= n <= 1)%nat -> in_domain (xx_E n) /\ forall p, In p xx_names -> exists i r, dget xx_idx (key p n) = Some i /\ nth_error xx_v i = Some r /\ r_val r = Some (meaning (xx_E n) p)) /\
  fits xx_g (Some [("per1", Some (1/2))])%R /\ (forall k, In k (dkeys xx_items) -> word k).
Proof. exact xx_ok. Qed.

(** An uncertainty of ten characters or more is joined to the value. *)
Theorem C83_joined_refuted : forall g tb d k x v, word k -> (forall y, word (g y)) -> (String.length (g (shift tb k x)) <= 14)%nat ->
  let e := match dget d k with Some e => e | None => Some 0%R end in (10 <= String.length (g e))%nat ->
  exists line, text_line g tb (Some d) k x v = line ++ nl /\ split line = (k :: (g (shift tb k x) ++ g e) :: flag v).
Proof. exact joined. Qed.
Print Assumptions C83_joined_refuted.

Example C83_joined_ex : exists line, text_line (fun x => match x with Some _ => "1.23457e-05" | None => "nan" end) 0 (Some [("per1", Some 1%R)]) "per1" None (VBool true) = line ++ nl /\ split line = ["per1"; "nan1.23457e-05"; "True"].
Proof.
  apply (C83_joined_refuted (fun x => match x with Some _ => "1.23457e-05" | None => "nan" end) 0 [("per1", Some 1%R)] "per1" None (VBool true)); [apply xx_word; [discriminate|reflexivity]| |cbn; repeat constructor|cbn; repeat constructor].
  intros [y|]; (apply xx_word; [discriminate|reflexivity]).
Qed.

(** Values end in column 35 and uncertainties in column 45, whatever the length of a name up to 20. *)
Theorem C83_columns : forall g tb u k x v, (String.length k <= 20)%nat -> (String.length (g (shift tb k x)) <= 15)%nat ->
  exists a b c, text_line g tb u k x v = k ++ spaces a ++ g (shift tb k x) ++ spaces b ++
      (match u with None => "" | Some u => g (match dget u k with Some e => e | None => Some 0%R end) ++ spaces c end) ++ vstr v ++ nl /\
    (String.length k + a + String.length (g (shift tb k x)) = 35)%nat /\
    match u with
    | None => (b + String.length (vstr v) = 11)%nat
    | Some u => let e := match dget u k with Some e => e | None => Some 0%R end in ((String.length (g e) <= 10)%nat -> (b + String.length (g e) = 10)%nat) /\ (c + String.length (vstr v) = 10)%nat
    end.
Proof. exact columns. Qed.
Print Assumptions C83_columns.

Example C83_columns_ex : text_line (fun _ => "1.5") 0 None "per1" None (VBool true) = "per1                            1.5       True" ++ nl.
Proof. reflexivity. Qed.

(** There is no text of a posterior that has lost a parameter of its orbit: only TypeError is caught. *)
Theorem C83_missing : forall g tb u idx v h ps h1, vector_to_dict (ps_items ps) idx v h = Ok h1 -> b_name (ps_basis ps) = "per tp e w k" -> (1 <= b_num (ps_basis ps))%nat -> dget (ps_items ps) "per1" = None ->
  like_repr g tb u idx v h ps = Err (KeyError "per1").
Proof. exact missing. Qed.
Print Assumptions C83_missing.

Example C83_missing_ex : like_repr (fun _ => "1") 0 None [] [] [] (mkParams [] (basis_init "per tp e w k" 1) 1 [] None) = Err (KeyError "per1").
Proof. reflexivity. Qed.

(** The text of a posterior is that of its likelihood and the descriptions of the priors, in order. *)
Theorem C83_priors : forall g tb u idx v h ps priors h1 t, post_repr g tb u idx v h ps priors = Ok (h1, t) -> exists t0, like_repr g tb u idx v h ps = Ok (h1, t0) /\
  lines t = (lines t0 ++ ["Priors"; "------"] ++ flat_map lines priors ++ [""])%list.
Proof. exact post_lines. Qed.
Print Assumptions C83_priors.

Example C83_priors_ex : exists h1 t, post_repr (fun _ => "1") 0 None [] [] [] (mkParams [] (basis_init "per tp e w k" 0) 0 [] None) ["Gaussian prior on per1, mu=1, sigma=2"] = Ok (h1, t).
Proof. eexists _, _. reflexivity. Qed.

(** A second text is the first, and parameters that agree with the vector are unchanged. *)
Theorem C83_again : forall g tb u idx v h ps h1 t, objects_ok h (ps_items ps) -> like_repr g tb u idx v h ps = Ok (h1, t) -> like_repr g tb u idx v h1 ps = Ok (h1, t).
Proof. exact print_again. Qed.
Print Assumptions C83_again.

Theorem C83_quiet_partial : forall g tb u idx v h ps h1 t,
  (forall k i, In k (dkeys (ps_items ps)) -> dget idx k = Some i -> exists r p, nth_error v i = Some r /\ get_param h (ps_items ps) k = Some p /\ p_value p = r_val r) ->
  like_repr g tb u idx v h ps = Ok (h1, t) -> h1 = h.
Proof. exact print_quiet. Qed.
Print Assumptions C83_quiet_partial.

(** Others are overwritten: a value assigned to a parameter and not yet copied to the vector is lost by printing. *)
Theorem C83_quiet_refuted : forall g tb u idx v h ps h1 t k i p r, objects_ok h (ps_items ps) -> like_repr g tb u idx v h ps = Ok (h1, t) ->
  get_param h (ps_items ps) k = Some p -> dget idx k = Some i -> nth_error v i = Some r -> p_value p <> r_val r ->
  exists p1, get_param h1 (ps_items ps) k = Some p1 /\ p_value p1 = r_val r /\ p_value p1 <> p_value p.
Proof. exact print_writes. Qed.
Print Assumptions C83_quiet_refuted.

Example C83_quiet_ex : get_param xx_h xx_items "per1" = Some (xx_p (Some 0%R) true) /\ dget xx_idx "per1" = Some 0%nat /\
  nth_error xx_v 0 = Some (mkRow (Some 10%R) true None false) /\ Some 0%R <> Some 10%R.
Proof. repeat split; try reflexivity. intro H. injection H as H. revert H. apply Rlt_not_eq. Lra.lra. Qed.

(** With two likelihoods or more the text shows no uncertainties: those of the composite are lost, though the dictionary of
    the first likelihood gets those of the second; if only the first has any, it cannot be built. *)
Theorem C83_composite_refuted : forall a b rest,
  (forall c f, composite_init (a :: b :: rest) = Ok (c, f) -> c = None /\ forall da db, a = Some da -> b = Some db -> f = Some (dupdate da db)) /\
  (forall da, composite_init (Some da :: None :: rest) = Err TypeError).
Proof. exact (fun a b rest => conj (composite_loses a b rest) (fun da => composite_raises da rest)). Qed.
Print Assumptions C83_composite_refuted.

Example C83_composite_ex : composite_init [Some [("per1", Some 1%R)]; Some [("k1", Some 2%R)]] = Ok (None, Some [("per1", Some 1%R); ("k1", Some 2%R)]).
Proof. reflexivity. Qed.
