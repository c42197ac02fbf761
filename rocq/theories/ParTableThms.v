(** The table as a whole and concrete tables, for C64. *)
From Coq Require Import Reals String Ascii Arith Bool Lia List.
From Verif Require Import Py PyFloat PyFacts Params Kepler Basis ParamsSpec Likelihood DecorrSpec DecorrProofs ParTable ParTableSpec ParTableProofs.
Import ListNotations.
Open Scope string_scope.

Section Whole.
  Variables (C Q T N : Type).
  Variables (chains : dict C) (quant : dict Q) (maxparams : dict N) (latex units : dict string) (suffixes : list string).
  Variables (geterr : C -> res T) (of_quantiles : Q -> T) (show : T -> N -> option Q -> res string).
  Notation tab_params := (tab_params C Q T N chains quant maxparams latex units suffixes geterr of_quantiles show).

  Lemma whole_table fb n ep names : (forall k, dmem quant k = dmem chains k) -> formats C Q T N geterr show ->
    (forall k, In k (numbered (split fb) n) \/ In k (numbered ["per"; "tc"; "tp"; "e"; "w"; "k"] n) -> In k (dkeys quant)) ->
    (forall p, In p (extra_names ep names) -> one_word p /\ ~ In (p ++ "1") (dkeys quant)) ->
    exists a b c, tab_params fb n ep names = Ok (a, b, c) /\
      map w_key a = filter (listed N maxparams latex) (numbered (split fb) n) /\
      map w_key b = filter (listed N maxparams latex) (numbered ["per"; "tc"; "tp"; "e"; "w"; "k"] n) /\
      map w_key c = filter (fun k => dmem quant k && listed N maxparams latex k) (extra_names ep names).
  Proof.
    intros S F P X.
    destruct (planet_rows C Q T N chains quant maxparams latex units suffixes geterr of_quantiles show S F (split fb) n) as (a & Ea & Ka); [auto|].
    destruct (planet_rows C Q T N chains quant maxparams latex units suffixes geterr of_quantiles show S F (split print_basis) n) as (b & Eb & Kb).
    { intros k Hk. apply P. right. exact Hk. }
    destruct (extra_rows C Q T N chains quant maxparams latex units suffixes geterr of_quantiles show S F (extra_names ep names)) as (c & Ec & Kc).
    { intros p Hp. now apply X. }
    exists a, b, c. unfold ParTable.tab_params. rewrite Ea. cbn [bind]. rewrite Eb. cbn [bind].
    rewrite split_concat by (intros p Hp; now apply X). rewrite Ec. auto.
  Qed.

  Lemma fitting_rows h ps h' q n ep names a b c : report_params h ps = Ok (h', Some q) ->
    tab_params (fitting_basis q) n ep names = Ok (a, b, c) -> a = b.
  Proof.
    intro R. rewrite (report_basis _ _ _ _ R). unfold ParTable.tab_params. change (split print_basis) with (split "per tc tp e w k").
    destruct (table_rows C Q T N chains quant maxparams latex units suffixes geterr of_quantiles show (split "per tc tp e w k") n) as [x|]; [|discriminate].
    cbn [bind]. destruct (table_rows C Q T N chains quant maxparams latex units suffixes geterr of_quantiles show (split (String.concat " " (extra_names ep names))) 1); [|discriminate].
    cbn [bind]. now intros [= <- <- _].
  Qed.
End Whole.

(** a posterior of one planet fitted in "per tc secosw sesinw k" *)
Definition xt_names : list string := ["per"; "tc"; "secosw"; "sesinw"; "k"].
Definition xt_heap (x : R) : heap := map (fun _ => mkParam (Some x) (VBool true) None false) xt_names.
Definition xt_ps : params := mkParams (combine (map (fun p => key p 1) xt_names) (seq 0 5)) (basis_init "per tc secosw sesinw k" 1) 1 xt_names None.
Lemma report_example : exists h' q, b_name (ps_basis xt_ps) = "per tc secosw sesinw k" /\
  In "secosw1" (dkeys (ps_items xt_ps)) /\ report_params (xt_heap (1/2)%R) xt_ps = Ok (h', Some q) /\ ~ In "secosw" (split (fitting_basis q)).
Proof.
  generalize (1/2)%R. intro x.
  destruct (report_params (xt_heap x) xt_ps) as [[h' [q|]]|e] eqn:E.
  - exists h', q. split; [reflexivity|]. split; [cbn; tauto|]. split; [reflexivity|]. rewrite (report_basis _ _ _ _ E). cbn. intuition discriminate.
  - exfalso. revert E. lazy -[timetrans_to_timeperi timeperi_to_timetrans np_arctan2 pow Rplus R]. discriminate.
  - exfalso. revert E. lazy -[timetrans_to_timeperi timeperi_to_timetrans np_arctan2 pow Rplus R]. discriminate.
Qed.

(** * Concrete tables: the statistics and numbers are names, shown side by side *)
Definition xt_show (t m : string) (q : option string) : res string := Ok (t ++ "/" ++ m).
Definition xt_dict (f : string -> string) (l : list string) : dict string := map (fun k => (k, f k)) l.
Definition xt_rows (keys : list string) (suffixes : list string) (names : list string) (n : nat) : res (list trow) :=
  table_rows string string string string (xt_dict (append "c:") keys) (xt_dict (append "q:") keys) (xt_dict (append "m:") keys) (xt_dict (append "t:") keys)
    report_units suffixes (@Ok string) (fun q => q) xt_show names n.
Lemma xt_same keys k : dmem (xt_dict (append "q:") keys) k = dmem (xt_dict (append "c:") keys) k.
Proof. unfold dmem. induction keys as [|a l IH]; [reflexivity|]. cbn. destruct (String.eqb k a); auto. Qed.
Lemma xt_formats : formats string string string string (@Ok string) xt_show.
Proof. split; intros; unfold xt_show; eauto. Qed.
Lemma one_word_dec p : String.eqb p "" = false -> substr_in " " p = false -> one_word p.
Proof.
  intros A B. split; [now apply String.eqb_neq|]. intro H. apply substr_occurs in H. congruence.
Qed.
Lemma only_suffix_dec l s p : In s l -> forallb (fun s' => negb (substr_in s' p) || String.eqb s' s) l = true -> only_suffix l s p.
Proof.
  intros I F. split; [exact I|]. intros s' Hs O. rewrite forallb_forall in F. apply substr_occurs in O. specialize (F s' Hs). rewrite O in F.
  now apply String.eqb_eq.
Qed.
(** a suffix that starts with a character its tail and the base do not have *)
Lemma only_at_end_char c s b : ~ occurs (String c "") b -> ~ occurs (String c "") s -> only_at_end (String c s) b.
Proof.
  intros Hb Hs. induction b as [|x b IH]; intros a d E.
  - destruct a as [|y a]; cbn in E.
    + injection E as E. assert (forall u v, String.length (u ++ v) = (String.length u + String.length v)%nat) as LA by (induction u; cbn; congruence).
      apply (f_equal String.length) in E. rewrite LA in E. destruct d; [reflexivity|cbn in E; lia].
    + exfalso. injection E as _ E. apply Hs. exists a, (s ++ d). exact E.
  - destruct a as [|y a]; cbn in E.
    + exfalso. injection E as -> _. apply Hb. exists "", b. reflexivity.
    + injection E as -> E. apply (IH ltac:(intros (u & v & X); apply Hb; exists (String y u), v; now rewrite X) a d E).
Qed.
Definition xt_keys : list string := ["per1"; "tc1"; "tp1"; "e1"; "w1"; "k1"; "dvdt"; "gamma_a"; "gamma_b"; "jit_a"; "gp_amp"].
