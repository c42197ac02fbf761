(** The theorems on the text of a fit (C83). *)
From Coq Require Import Reals String Ascii DecimalString Arith Bool Lra Lia List.
From Verif Require Import Py PyFacts Params ParamsProofs ParamsSpec VectorProofs Basis BasisNum BasisProofs BasisConv BasisModel BasisThms PostProcSpec PostProcProofs PickleProofs FitText FitTextSpec FitTextProofs.
Import ListNotations.
Open Scope string_scope.

(** the vector holds [val] for planet [n] *)
Theorem text_shows g tb u idx v h ps b names (E : nat -> elements) : params_ok h ps b names -> objects_ok h (ps_items ps) ->
  (forall k i, In k (dkeys (ps_items ps)) -> dget idx k = Some i -> (i < length v)%nat) ->
  (forall n, (1 <= n <= ps_num ps)%nat -> in_domain (E n) /\ forall p, In p names -> exists i r, dget idx (key p n) = Some i /\ nth_error v i = Some r /\ r_val r = Some (meaning (E n) p)) ->
  fits g u -> (forall k, In k (dkeys (ps_items ps)) -> word k) ->
  exists h1 text rows E', like_repr g tb u idx v h ps = Ok (h1, text) /\
  map split (lines text) = (head u :: map (fields g) rows ++ [[]])%list /\ NoDup (map sh_name rows) /\
  filter (dmem (ps_items ps)) (map sh_name rows) = filter (fun k => existsb (String.eqb k) (map sh_name rows)) (dkeys (ps_items ps)) /\
  (forall k p, get_param h (ps_items ps) k = Some p ->
     match dget idx k, p_value p with
     | None, None => ~ In k (map sh_name rows)
     | i, x => exists e, In e rows /\ sh_name e = k /\ uncertainty u k (sh_err e) /\ sh_flag e = flag (p_vary p) /\
                 match i with Some i => exists r, nth_error v i = Some r /\ displayed tb k (r_val r) (sh_value e) | None => displayed tb k x (sh_value e) end
     end) /\
  (forall n, (1 <= n <= ps_num ps)%nat -> recovered names (E n) (E' n) /\ forall p, In p ["per"; "tp"; "e"; "w"; "k"] -> ~ In (key p n) (dkeys (ps_items ps)) ->
     exists e, In e rows /\ sh_name e = key p n /\ uncertainty u (key p n) (sh_err e) /\ sh_flag e = [] /\ displayed tb (key p n) (Some (meaning (E' n) p)) (sh_value e)) /\
  (forall k, In k (map sh_name rows) -> In k (dkeys (ps_items ps)) \/ exists p n, In p ["per"; "tp"; "e"; "w"; "k"] /\ (1 <= n <= ps_num ps)%nat /\ k = key p n).
Proof.
  intros OK OB HI HE FT WD.
  destruct (text_rows g tb u idx v h ps b names (fun n => meaning (E n)) OK OB HI (fun n p Hn Hp => proj2 (HE n Hn) p Hp) FT WD) as (h1 & text & rows & A & _ & B & C & D & F & G & K).
  exists h1, text, rows, (fun n => els b (meaning (E n))). repeat (split; [assumption|]). split; [|exact K].
  intros n Hn. split; [apply els_meaning; [apply OK|now apply HE]|]. intros p Hp N. now apply G.
Qed.

(** ** printing and the parameters *)
Lemma list_upd_same {A} (l : list A) : forall i x, nth_error l i = Some x -> list_upd l i x = l.
Proof. induction l as [|y l IH]; intros [|i] x H; cbn in *; [easy|easy|congruence|f_equal; auto]. Qed.
Lemma vd_same d idx v h : (forall k i, In k (dkeys d) -> dget idx k = Some i -> exists r p, nth_error v i = Some r /\ get_param h d k = Some p /\ p_value p = r_val r) -> vector_to_dict d idx v h = Ok h.
Proof.
  intro H. unfold vector_to_dict. enough (forall ks, (forall k, In k ks -> In k (dkeys d)) -> for_each ks (vd_step d idx v) h = Ok h) as Q by (apply Q; auto).
  induction ks as [|k ks IH]; intro S; [reflexivity|]. cbn [for_each]. assert (vd_step d idx v h k = Ok h) as ->.
  { unfold vd_step. destruct (dget idx k) as [i|] eqn:Ei; [|reflexivity]. destruct (H k i (S k (or_introl eq_refl)) Ei) as (r & p & -> & G & V). unfold get_param in G. destruct (dget d k) as [l|]; [|discriminate]. rewrite G.
    f_equal. apply list_upd_same. rewrite <- V. destruct p. exact G. }
  cbn [bind]. apply IH. intros; apply S; now right.
Qed.
Lemma repr_heap g tb u idx v h ps h1 t : like_repr g tb u idx v h ps = Ok (h1, t) -> vector_to_dict (ps_items ps) idx v h = Ok h1.
Proof. unfold like_repr. destruct (vector_to_dict _ _ _ _) as [h'|]; [|discriminate]. cbn [bind]. destruct (to_synth _ _ _ _ _) as [[h2 sp]|e]; [|destruct e; try discriminate]; intro H; injection H as -> _; reflexivity. Qed.
Theorem print_again g tb u idx v h ps h1 t : objects_ok h (ps_items ps) -> like_repr g tb u idx v h ps = Ok (h1, t) -> like_repr g tb u idx v h1 ps = Ok (h1, t).
Proof.
  intros OB E. pose proof (repr_heap _ _ _ _ _ _ _ _ _ E) as V. unfold like_repr in *. rewrite V in E. cbn [bind] in E.
  assert (vector_to_dict (ps_items ps) idx v h1 = Ok h1) as ->; [|exact E]. apply vd_same. intros k i Hk Hi. destruct (vd_ok _ _ _ _ _ OB V) as [_ Q]. now apply Q.
Qed.
Theorem print_quiet g tb u idx v h ps h1 t : (forall k i, In k (dkeys (ps_items ps)) -> dget idx k = Some i -> exists r p, nth_error v i = Some r /\ get_param h (ps_items ps) k = Some p /\ p_value p = r_val r) ->
  like_repr g tb u idx v h ps = Ok (h1, t) -> h1 = h.
Proof. intros H E. apply repr_heap in E. rewrite vd_same in E by exact H. congruence. Qed.
Theorem print_writes g tb u idx v h ps h1 t k i p r : objects_ok h (ps_items ps) -> like_repr g tb u idx v h ps = Ok (h1, t) ->
  get_param h (ps_items ps) k = Some p -> dget idx k = Some i -> nth_error v i = Some r -> p_value p <> r_val r -> exists p1, get_param h1 (ps_items ps) k = Some p1 /\ p_value p1 = r_val r /\ p_value p1 <> p_value p.
Proof.
  intros OB E G I N D. apply repr_heap in E. destruct (vd_ok _ _ _ _ _ OB E) as [_ Q]. assert (In k (dkeys (ps_items ps))) as Hk by (unfold get_param in G; destruct (dget (ps_items ps) k) eqn:El; [eapply dget_key; eauto|discriminate]).
  destruct (Q k i Hk I) as (r' & p1 & N' & G1 & V). rewrite N in N'. injection N' as <-. exists p1. split; [exact G1|]. split; [exact V|]. congruence.
Qed.

(** ** the posterior *)
Lemma lines_app a b : lines (a ++ nl ++ b) = (lines a ++ lines b)%list.
Proof.
  induction a as [|c a IH]; [reflexivity|]. cbn [append lines]. destruct (Ascii.eqb c "010"); [now rewrite IH|]. rewrite IH. destruct (lines a) as [|l ls] eqn:L; [|reflexivity].
  exfalso. clear - L. destruct a; cbn in L; [discriminate|]. destruct (Ascii.eqb a "010"); [discriminate|]. destruct (lines a0); discriminate.
Qed.
Theorem post_lines g tb u idx v h ps priors h1 t : post_repr g tb u idx v h ps priors = Ok (h1, t) -> exists t0, like_repr g tb u idx v h ps = Ok (h1, t0) /\
  lines t = (lines t0 ++ ["Priors"; "------"] ++ flat_map lines priors ++ [""])%list.
Proof.
  unfold post_repr. destruct (like_repr _ _ _ _ _ _ _) as [[h' t0]|]; [|discriminate]. cbn [bind]. set (F := fold_left _ priors _). intro H. injection H as <- <-. exists t0. split; [reflexivity|]. unfold F. clear F.
  assert (forall s, lines (fold_left (fun s p => s ++ p ++ nl) priors (s ++ nl)) = (lines s ++ flat_map lines priors ++ [""])%list) as Q.
  { induction priors as [|p l IH]; intro s; cbn [fold_left flat_map app].
    - rewrite <- (str_nil nl), lines_app. reflexivity.
    - replace ((s ++ nl) ++ p ++ nl) with ((s ++ nl ++ p) ++ nl) by now rewrite !str_app. rewrite IH, lines_app. now rewrite <- !app_assoc. }
  replace (t0 ++ nl ++ "Priors" ++ nl ++ "------" ++ nl) with ((t0 ++ nl ++ "Priors" ++ nl ++ "------") ++ nl) by now rewrite !str_app. rewrite Q, lines_app. rewrite <- app_assoc. reflexivity.
Qed.

(** ** what fails *)
(** a long uncertainty is joined to the value *)
Theorem joined g tb d k x v : word k -> (forall y, word (g y)) -> (String.length (g (shift tb k x)) <= 14)%nat ->
  let e := match dget d k with Some e => e | None => Some 0%R end in (10 <= String.length (g e))%nat ->
  exists line, text_line g tb (Some d) k x v = line ++ nl /\ split line = (k :: (g (shift tb k x) ++ g e) :: flag v).
Proof.
  intros W WG LV e LE. exists (body g tb (Some d) k x v). split; [apply line_body|]. unfold body. fold e. destruct (padl_one 15 (g (shift tb k x))) as [m PM]; [lia|]. unfold padr. rewrite PM, str_app. cbn [append]. rewrite split_pad by exact W. f_equal.
  rewrite str_app, split_spaces. unfold padl at 1. replace (10 - String.length (g e))%nat with 0%nat by lia. cbn [spaces append].
  assert (word (g (shift tb k x) ++ g e)) as WW.
  { destruct (WG (shift tb k x)) as (A & B & C), (WG e) as (A' & B' & C'). split; [destruct (g (shift tb k x)); [easy|discriminate]|]. split; rewrite chars_app; intro H; apply in_app_or in H; tauto. }
  assert (exists r, padl 10 (vstr v) = String " " r) as [r Er] by (destruct v as [[]|]; eexists; reflexivity). pose proof (split_flag v) as SF. rewrite Er in SF |- *.
  rewrite <- str_app. rewrite split_tok by exact WW. change (split (String " " r)) with (split r) in SF. now rewrite SF.
Qed.
(** two likelihoods: the uncertainties are lost *)
(** columns *)
Lemma columns g tb u k x v : (String.length k <= 20)%nat -> (String.length (g (shift tb k x)) <= 15)%nat ->
  exists a b c, text_line g tb u k x v = k ++ spaces a ++ g (shift tb k x) ++ spaces b ++
      (match u with None => "" | Some u => g (match dget u k with Some e => e | None => Some 0%R end) ++ spaces c end) ++ vstr v ++ nl /\
    (String.length k + a + String.length (g (shift tb k x)) = 35)%nat /\
    match u with
    | None => (b + String.length (vstr v) = 11)%nat
    | Some u => let e := match dget u k with Some e => e | None => Some 0%R end in ((String.length (g e) <= 10)%nat -> (b + String.length (g e) = 10)%nat) /\ (c + String.length (vstr v) = 10)%nat
    end.
Proof.
  intros LK LV.
  assert (SP : forall m n r, spaces m ++ spaces n ++ r = spaces (m + n) ++ r) by (intros m n r; induction m as [|m IH]; [reflexivity|cbn; now rewrite IH]).
  assert (LF : (String.length (vstr v) <= 10)%nat) by (destruct v as [[]|]; cbn; lia).
  destruct u as [d|].
  - set (e := match dget d k with Some e => e | None => Some 0%R end).
    exists (20 - String.length k + (15 - String.length (g (shift tb k x))))%nat, (10 - String.length (g e))%nat, (10 - String.length (vstr v))%nat. split; [|cbn zeta; fold e; lia].
    unfold text_line, padr, padl. fold e. rewrite !str_app, SP. reflexivity.
  - exists (20 - String.length k + (15 - String.length (g (shift tb k x))))%nat, (1 + (10 - String.length (vstr v)))%nat, 0%nat. split; [|lia].
    unfold text_line, padr, padl. rewrite !str_app, SP. reflexivity.
Qed.
(** a parameter of the orbit that is missing *)
Lemma missing g tb u idx v h ps h1 : vector_to_dict (ps_items ps) idx v h = Ok h1 -> b_name (ps_basis ps) = "per tp e w k" -> (1 <= b_num (ps_basis ps))%nat -> dget (ps_items ps) "per1" = None ->
  like_repr g tb u idx v h ps = Err (KeyError "per1").
Proof.
  intros V B N D. unfold like_repr. rewrite V. cbn [bind]. unfold to_synth. destruct (copy_params h1 ps) as [h2 q]. destruct (b_num (ps_basis ps)) as [|m]; [lia|]. cbn [seq for_each]. rewrite B.
  assert (getpar h1 (ps_items ps) 1 "per" = Err (KeyError "per1")) as E.
  { unfold getpar, get_param. change (key "per" 1) with "per1". now rewrite D. }
  change (synth_of "per tp e w k" (getpar h1 (ps_items ps) 1)) with (do per <- getpar h1 (ps_items ps) 1 "per"; do tp <- getpar h1 (ps_items ps) 1 "tp"; do e <- getpar h1 (ps_items ps) 1 "e"; do w <- getpar h1 (ps_items ps) 1 "w"; do k <- getpar h1 (ps_items ps) 1 "k"; Ok (per, tp, e, w, k)).
  rewrite E. reflexivity.
Qed.

Lemma comp_none rest : forall self first c f, composite_uparams rest self first = Ok (c, f) -> rest <> [] -> c = None.
Proof.
  assert (forall rest first c f, composite_uparams rest None first = Ok (c, f) -> c = None) as N by (clear; induction rest as [|u r IH]; intros first c f E; cbn in E; [congruence|eauto]).
  intros self first c f E NE. destruct rest as [|u r]; [easy|]. cbn [composite_uparams] in E. destruct self as [s|]; [|eauto]. destruct u; [eauto|discriminate].
Qed.
Theorem composite_loses a b rest c f : composite_init (a :: b :: rest) = Ok (c, f) -> c = None /\ forall da db, a = Some da -> b = Some db -> f = Some (dupdate da db).
Proof.
  intro E. split; [now apply (comp_none (b :: rest) a a c f)|]. intros da db -> ->. cbn in E.
  assert (forall rest first c f, composite_uparams rest None first = Ok (c, f) -> f = first) as N by (clear; induction rest as [|u r IH]; intros first c f E; cbn in E; [congruence|eauto]). eauto.
Qed.
Theorem composite_raises da rest : composite_init (Some da :: None :: rest) = Err TypeError.
Proof. reflexivity. Qed.

(** ** an example: one planet, a jitter without index *)
Definition xx_names := ["per"; "tc"; "e"; "w"; "k"].
Definition xx_items : dict nat := [("per1", 0%nat); ("tc1", 1%nat); ("e1", 2%nat); ("w1", 3%nat); ("k1", 4%nat); ("jit", 5%nat); ("note", 6%nat)].
Definition xx_ps : params := mkParams xx_items (basis_init "per tc e w k" 1) 1 xx_names None.
Definition xx_p (x : option R) (b : bool) : param := mkParam x (VBool b) None false.
Definition xx_h : heap := [xx_p (Some 0) true; xx_p None true; xx_p (Some 0) false; xx_p (Some 0) false; xx_p (Some 0) true; xx_p (Some 7) true; xx_p None true]%R.
Definition xx_idx : dict nat := [("per1", 0%nat); ("tc1", 1%nat); ("e1", 2%nat); ("w1", 3%nat); ("k1", 4%nat)].
Definition xx_E (n : nat) : elements := mkEl 10 2 (1/2) 0 5.
Definition xx_v : list row := map (fun p => mkRow (Some (meaning (xx_E 1) p)) true None false) xx_names.
Definition xx_g (x : option R) : string := "1".
Lemma xx_word s : s <> "" -> forallb (fun c => negb (Ascii.eqb c " " || Ascii.eqb c "010")) (chars s) = true -> word s.
Proof. intros N F. rewrite forallb_forall in F. split; [exact N|]. split; intro H; apply F in H; discriminate. Qed.
Lemma xx_ok : params_ok xx_h xx_ps "per tc e w k" xx_names /\ objects_ok xx_h xx_items /\
  (forall k i, In k (dkeys xx_items) -> dget xx_idx k = Some i -> (i < length xx_v)%nat) /\
  (forall n, (1 <= n <= 1)%nat -> in_domain (xx_E n) /\ forall p, In p xx_names -> exists i r, dget xx_idx (key p n) = Some i /\ nth_error xx_v i = Some r /\ r_val r = Some (meaning (xx_E n) p)) /\
  fits xx_g (Some [("per1", Some (1/2))])%R /\ (forall k, In k (dkeys xx_items) -> word k).
Proof.
  split; [|split; [|split; [|split; [|split]]]].
  - constructor; try reflexivity.
    + cbn. tauto.
    + intros k l H. cbn in H. repeat (destruct H as [H|H]; [injection H as _ <-; cbn; lia|]). easy.
    + cbn. repeat constructor; cbn; intuition discriminate.
    + intros n p Hn Hp. assert (n = 1%nat) as -> by (cbn in Hn; lia). cbn in Hp. repeat (destruct Hp as [<-|Hp]; [cbn; tauto|]). easy.
  - constructor.
    + cbn. repeat constructor; cbn; intuition discriminate.
    + intros k l H. apply dget_in in H. cbn in H. repeat (destruct H as [H|H]; [injection H as _ <-; cbn; lia|]). easy.
    + intros k k' l H H'. apply dget_in in H. apply dget_in in H'. cbn in H, H'.
      repeat (destruct H as [H|H]; [injection H as <- <-; repeat (destruct H' as [H'|H']; [first [discriminate H'|injection H' as <-; reflexivity]|]); easy|]). easy.
  - intros k i _ H. apply dget_in in H. cbn in H. repeat (destruct H as [H|H]; [injection H as _ <-; cbn; lia|]). easy.
  - intros n Hn. assert (n = 1%nat) as -> by lia. split; [unfold in_domain; cbn; lra|]. intros p Hp. cbn in Hp. repeat (destruct Hp as [<-|Hp]; [do 2 eexists; repeat split; reflexivity|]). easy.
  - split; [intro x; split; [apply xx_word; [discriminate|reflexivity]|cbn; lia]|intro k; cbn; lia].
  - intros k H. cbn in H. repeat (destruct H as [<-|H]; [apply xx_word; [discriminate|reflexivity]|]). easy.
Qed.
