(** What mcmc() shows while it runs and at its end: radvel/mcmc.py:45-101, 122-136, 169-173, 388-391, 435-474.

    Arithmetic is exact: step / totsteps and the percentage are rational numbers (the code computes them in binary64 before
    they are rounded or printed).  The format of the other numbers is an argument, [fmt spec x] being '{:spec}'.format(x);
    the clock is an argument: [clock r] is t2 - t1 of round r and [tdiff] the time of the run.  The size of a terminal, in which
    curses may refuse to write, is not modelled. *)
From Coq Require Import Reals String Ascii ZArith Bool List Decimal DecimalString.
From Verif Require Import Py PyFloat Params Mcmc Format.
Import ListNotations.
Open Scope string_scope.

Definition nl : string := String (ascii_of_nat 10) "".
Definition cr : string := String (ascii_of_nat 13) "".
(** '{:d}' *)
Definition dec (z : Z) : string := NilEmpty.string_of_int (Z.to_int z).
(** '{:3.1f}' of a / b for b > 0 and a >= 0: three characters at least *)
Definition one_decimal (a b : Z) : string :=
  let q := round_div (10 * a) b in dec (q / 10) ++ "." ++ dec (q mod 10).
(** ''.join([c for s in range(n)]) *)
Definition times (c : ascii) (n : Z) : string := string_of_list_ascii (repeat c (Z.to_nat n)).
(** _progress_bar, mcmc.py:55-64; np.round is half to even *)
Definition progress_bar (step tot width : Z) : res string :=
  if Z.eqb tot 0 then Err ZeroDivisionError
  else
    let numsym := if Z.ltb tot 0 then round_div (- (width * step)) (- tot) else round_div (width * step) tot in
    Ok ("[" ++ times "=" numsym ++ times " " (width - numsym) ++ "]").

(** headless, a notebook, or a terminal: mcmc.py:169-173 *)
Inductive display := Headless | Notebook | Terminal.

Section Shown.
Variable tr : nat -> nat -> ens -> sample * list nat.
Variable acor : list (list sample) -> list ext.
Variable g : mcfg.
Variable fmt : string -> ext -> string.

(** statevars.totsteps, mcmc.py:347 *)
Definition total : Z := (g_nrun g * Z.of_nat (nw_of g) * Z.of_nat (g_ensembles g))%Z.
(** sampler.acceptance_fraction *)
Definition acceptance (s : sampler) : list R := map (fun a => (INR a / INR (iteration s))%R) (sp_acc s).
(** statevars.ar, mcmc.py:122, 129, 132 *)
Definition accepted (m : mstate) : R := (rsum (map (fun s => mean (acceptance s) * 100) (m_samplers m)) / INR (g_ensembles g))%R.
(** statevars.rate, mcmc.py:135, with checkinterval - 1 from mcmc.py:279 *)
Definition rate (interval : R) : res R :=
  if reqb interval 0 then Err ZeroDivisionError else Ok ((INR (g_check g) - 1) * INR (nw_of g) * INR (g_ensembles g) / interval)%R.

Definition steps_text (m : mstate) : string :=
  dec (Z.of_nat (m_ncomplete m)) ++ "/" ++ dec total ++ " (" ++ one_decimal (100 * Z.of_nat (m_ncomplete m)) total ++ "%) steps complete; ".
(** the text after the steps; [sep] is what stands before Max Auto *)
Definition rest_text (sep : string) (rt : R) (m : mstate) : string :=
  "Running " ++ fmt ".2f" (Fin rt) ++ " steps/s; Mean acceptance rate = " ++ fmt "3.1f" (Fin (accepted m)) ++ "%; " ++
  "Min Auto Factor = " ++ fmt "3.0f" (m_minafactor m) ++ "; " ++ sep ++ "Max Auto Relative-Change = " ++ fmt "5.3" (m_maxarchange m) ++ "; " ++
  "Min Tz = " ++ fmt ".1f" (m_mintz m) ++ "; Max G-R = " ++ fmt "5.3f" (m_maxgr m).
(** _status_message_NB, mcmc.py:67-79, and _status_message_CLI, mcmc.py:82-105 *)
Definition status (d : display) (rt : R) (m : mstate) : res (list string) :=
  match d with
  | Headless => Ok []
  | Notebook => Ok [steps_text m ++ rest_text "" rt m ++ cr]
  | Terminal =>
      do bar <- progress_bar (Z.of_nat (m_ncomplete m)) total 50;
      Ok [(bar ++ " " ++ steps_text m) ++ nl ++ rest_text nl rt m ++ nl]
  end.

(** what appears: a status message or a printed text *)
Inductive event := Shown (s : string) | Printed (s : string).
Definition discarding : string := nl ++ "Discarding burn-in now that the chains are marginally well-mixed" ++ nl.
(** one round, mcmc.py:366-446 *)
Definition round_shown (d : display) (interval : R) (m : mstate) : res (mstate * list event) :=
  do m1 <- sample_round tr g m;
  do rt <- rate interval;
  do m2 <- convergence_check acor g m1;
  do msg <- status d rt m2;
  do m3 <- burn_step g m2;
  Ok (m3, (map Shown msg ++ if m_burned m3 && negb (m_burned m2) then [Printed discarding] else [])%list).
Fixpoint rounds_shown (d : display) (clock : nat -> R) (n r : nat) (m : mstate) : res (mstate * list event) :=
  match n with
  | O => Ok (m, [])
  | S n' =>
      do (m1, l) <- round_shown d (clock r) m;
      if Nat.leb 2 (m_mixcount m1) then Ok (m1, l)
      else do (m2, l2) <- rounds_shown d clock n' (S r) m1; Ok (m2, (l ++ l2)%list)
  end.

Definition well_mixed (tdiff : R) (m : mstate) : string :=
  let '(v, u) := time_print tdiff in
  nl ++ "Chains are well-mixed after " ++ dec (Z.of_nat (m_ncomplete m)) ++ " steps! MCMC completed in " ++ fmt "3.1f" (Fin v) ++ " " ++ u.
Definition marginal : string :=
  "MCMC: WARNING: chains did not pass 2 consecutive convergence tests. They may be marginally well=mixed.".
Definition not_mixed : string := "MCMC: WARNING: chains did not pass convergence tests. They are likely not well-mixed.".
(** mcmc.py:448-474; the loop was left early just if mixcount >= 2 *)
Definition closing (tdiff : R) (m : mstate) : list string :=
  ((if Nat.leb 2 (m_mixcount m) then [well_mixed tdiff m] else []) ++ [nl] ++
   (if m_ismixed m && Nat.ltb (m_mixcount m) 2 then [marginal] else if negb (m_ismixed m) then [not_mixed] else []))%list.
End Shown.
