(** Model of radvel/mcmc.py.

    emcee is an oracle: [tr e c p] is the state after one transition of ensemble
    [e] from positions [p], where [c] counts the transitions made so far (it stands
    for the state of the random number generator), together with the acceptance
    counts; [acor] is emcee.autocorr.integrated_time.  Initial positions are given.
    Screen output, timing and KeyboardInterrupt are not modelled.  The parallel and
    the serial branch (mcmc.py:377-386) have the same effect here: every sampler is
    advanced by _domcmc. *)
From Coq Require Import Reals String Arith ZArith Bool List.
From Verif Require Import Py PyFloat Params.
Import ListNotations.
Open Scope R_scope.

(** positions: walkers x parameters *)
Definition ens := list (list R).
(** one stored step of a sampler *)
Record sample := mkS { s_pos : ens; s_lnp : list ext }.
(** emcee.EnsembleSampler with its backend; sampler.iteration is the length of the chain *)
Record sampler := mkSp { sp_chain : list sample; sp_acc : list nat; sp_calls : nat }.

Definition new_sampler : sampler := mkSp [] [] 0.
(** sampler.reset() *)
Definition sp_reset (s : sampler) : sampler := mkSp [] [] (sp_calls s).
Definition iteration (s : sampler) : nat := length (sp_chain s).
(** get_last_sample: AttributeError before the first step *)
Definition last_sample (s : sampler) : res ens :=
  match rev (sp_chain s) with x :: _ => Ok (s_pos x) | [] => Err AttributeError end.

Fixpoint add_acc (a b : list nat) : list nat :=
  match a, b with x :: a', y :: b' => (x + y)%nat :: add_acc a' b' | [], b => b | a, [] => a end.

Section Run.
Variable tr : nat -> nat -> ens -> sample * list nat.

(** one stored transition *)
Definition one_step (e : nat) (p : ens) (s : sampler) : sampler :=
  let '(x, acc) := tr e (sp_calls s) p in
  mkSp (sp_chain s ++ [x]) (add_acc (sp_acc s) acc) (S (sp_calls s)).
(** sampler.run_mcmc(p, n) *)
Fixpoint run_steps (e n : nat) (p : ens) (s : sampler) : sampler :=
  match n with
  | O => s
  | S n' => run_steps e n' (s_pos (fst (tr e (sp_calls s) p))) (one_step e p s)
  end.

(** mcmc.py:362-374: starting positions, and one step of every sampler.
    [started] is proceed_started. *)
Fixpoint first_steps (e : nat) (started : bool) (inits : list ens) (sps : list sampler) : res (list (ens * sampler) * bool) :=
  match inits, sps with
  | p0 :: inits', s :: sps' =>
      do p1 <- (if Nat.leb (iteration s) 1 || negb started then Ok p0 else last_sample s);
      do (l, st) <- first_steps (S e) true inits' sps';
      Ok ((p1, one_step e p1 s) :: l, st)
  | _, _ => Ok ([], started)
  end.
(** _domcmc for every ensemble, mcmc.py:176-186, 376-386: again from [p1] *)
Fixpoint domcmc (e n : nat) (inp : list (ens * sampler)) : list sampler :=
  match inp with
  | [] => []
  | (p1, s) :: r => run_steps e n p1 s :: domcmc (S e) n r
  end.
End Run.

(** ** Statistics, mcmc.py:492-611 *)

Definition mean (l : list R) : R := rsum l / INR (length l).
Definition var (l : list R) : R := mean (map (fun x => (x - mean l) ^ 2) l).

(** Python's min/max of a list of floats (comparisons with nan are False) *)
Definition py_min (l : list ext) : res ext :=
  match l with [] => Err ValueError | x :: r => Ok (fold_left (fun m y => if ext_ltb y m then y else m) r x) end.
Definition py_max (l : list ext) : res ext :=
  match l with [] => Err ValueError | x :: r => Ok (fold_left (fun m y => if ext_ltb m y then y else m) r x) end.
(** np.amin/np.amax: nan if there is one *)
Definition is_nan (x : ext) : bool := match x with NaN => true | _ => false end.
Definition np_min (l : list ext) : res ext := if existsb is_nan l then Ok NaN else py_min l.
Definition np_max (l : list ext) : res ext := if existsb is_nan l then Ok NaN else py_max l.

(** values of parameter [j] in one ensemble, walker by walker (reshape of
    get_chain().T, mcmc.py:547-549) *)
Definition value (x : sample) (w j : nat) : R := nth j (nth w (s_pos x) []) 0.
Definition flat_par (nw : nat) (c : list sample) (j : nat) : list R :=
  flat_map (fun w => map (fun x => value x w j) c) (seq 0 nw).

(** Gelman-Rubin ingredients for one parameter; [pars] has one list per chain *)
Definition within (pars : list (list R)) : R := mean (map var pars).
Definition var_of_means (pars : list (list R)) : R := var (map mean pars).
Definition var_estimate (nsteps : R) (pars : list (list R)) : R :=
  (1 - 1 / nsteps) * within pars + 1 / nsteps * (var_of_means pars * nsteps).
Definition gelman_rubin (nsteps : R) (pars : list (list R)) : ext :=
  ext_sqrt (ext_div (Fin (var_estimate nsteps pars)) (Fin (within pars))).
(** vbz of mcmc.py:580-585 *)
Definition vbz (nsteps nchains : R) (pars : list (list R)) : ext :=
  ext_div (Fin (var_estimate nsteps pars)) (Fin (var_of_means pars / (nchains - 1) * nsteps)).

Record thresholds := mkT { th_minA : ext; th_maxAr : ext; th_maxGR : ext; th_minTz : ext }.
Record stats := mkStats { st_mixed : bool; st_afactor : list ext; st_archange : list ext; st_acor : list ext;
                          st_gr : list ext; st_tz : list ext }.

(** element of archange; [None] is the initial oac = 0 *)
Definition arch1 (a o : ext) : ext :=
  match ext_sub a o with
  | NaN => NaN
  | NInf | PInf => ext_div PInf o
  | Fin d => ext_div (Fin (Rabs d)) o
  end.
Definition archange (acor : list ext) (old : option (list ext)) : list ext :=
  match old with
  | None => map (fun a => arch1 a (Fin 0)) acor
  | Some o => (fix go a o := match a, o with x :: a', y :: o' => arch1 x y :: go a' o' | _, _ => [] end) acor o
  end.

Definition same_length {A} (l : list (list A)) : bool :=
  match l with [] => true | x :: r => forallb (fun y => Nat.eqb (length y) (length x)) r end.

Definition ext_gtb (a b : ext) : bool := ext_ltb b a.

(** convergence_calculate for chains of [nw] walkers and [ndim] parameters *)
Definition convergence_calculate (acor : list (list sample) -> list ext) (th : thresholds) (nw ndim : nat)
  (chains : list (list sample)) (old : option (list ext)) : res stats :=
  if negb (same_length chains) then Err ValueError     (* np.dstack of different shapes *)
  else
    let n := (nw * match chains with c :: _ => length c | [] => 0 end)%nat in
    if Nat.leb n 1 then Err AssertionError
    else
      let pars j := map (fun c => flat_par nw c j) chains in
      let nsteps := INR n in
      let nchains := INR (length chains) in
      let tz0 := map (fun v => ext_mul (Fin (nchains * nsteps)) v)
                     (filter (fun v => ext_ltb v (Fin 1)) (map (fun j => vbz nsteps nchains (pars j)) (seq 0 ndim))) in
      let '(tz, minTz) := if Nat.eqb (length chains) 1 then ([Fin (-1)], NInf)
                          else (match tz0 with [] => [Fin (-1)] | _ => tz0 end, th_minTz th) in
      let gr := map (fun j => gelman_rubin nsteps (pars j)) (seq 0 ndim) in
      let ac := acor chains in
      let total := length (concat chains) in
      let af := map (fun a => ext_div (Fin (INR total)) a) ac in
      let ar := archange ac old in
      do mtz <- py_min tz;
      do mgr <- py_max gr;
      do maf <- np_min af;
      do mar <- np_max ar;
      Ok (mkStats (ext_gtb mtz minTz && ext_ltb mgr (th_maxGR th) && ext_gtb maf (th_minA th) && ext_ltb mar (th_maxAr th))
                  af ar ac gr tz).

(** ** The state, mcmc.py:18-30 and the attributes set in mcmc() *)

Record mstate := mkM {
  m_oac : option (list ext);
  m_autosamples : list nat; m_automean : list ext; m_automin : list ext; m_automax : list ext;
  m_started : bool;
  m_samplers : list sampler; m_inits : list ens;
  m_chains : option (list (list sample));       (* statevars.chains and lnprob *)
  m_ncomplete : nat; m_nburn : nat; m_burned : bool;
  m_ismixed : bool; m_mixcount : nat;
  m_minafactor : ext; m_maxarchange : ext; m_mintz : ext; m_maxgr : ext }.

Record mcfg := mkCfg {
  g_nw : nat; g_ndim : nat; g_nrun : Z; g_ensembles : nat; g_check : nat;
  g_th : thresholds; g_burnA : ext; g_burnGR : ext; g_minsteps : R; g_minpercent : R; g_thin : nat }.

(** mcmc.py:286-290 *)
Definition walkers (nwalkers ndim : nat) : nat := if Nat.ltb nwalkers (2 * ndim) then (2 * ndim)%nat else nwalkers.
Definition nw_of (g : mcfg) : nat := walkers (g_nw g) (g_ndim g).

(** np.round(a / b) for integers, half to even *)
Definition round_div (a b : Z) : Z :=
  let q := (a / b)%Z in
  match Z.compare (2 * (a - q * b)) (Z.abs b) with
  | Lt => q
  | Gt => (q + 1)%Z
  | Eq => if Z.even q then q else (q + 1)%Z
  end.
(** mcmc.py:346; ZeroDivisionError for checkinterval = 1.  (A negative divisor,
    checkinterval = 0, gives a negative number or 0: no rounds; see [round_div] with
    the fraction's sign moved to the numerator.) *)
Definition num_run (g : mcfg) : res Z :=
  let d := (Z.of_nat (g_check g) - 1)%Z in
  if Z.eqb d 0 then Err ZeroDivisionError
  else Ok (if Z.ltb d 0 then round_div (- g_nrun g) (- d) else round_div (g_nrun g) d).

Section Mcmc.
Variable tr : nat -> nat -> ens -> sample * list nat.
Variable acor : list (list sample) -> list ext.
Variable g : mcfg.

(** np.mean of a list of floats *)
Definition ext_mean (l : list ext) : ext := ext_div (ext_sum l) (Fin (INR (length l))).

(** convergence_check, mcmc.py:104-167.  [pcomplete < minpercent] is written
    without the division by totsteps (totsteps > 0 whenever a round is run). *)
Definition totsteps : R := IZR (g_nrun g) * INR (nw_of g) * INR (g_ensembles g).
Definition convergence_check (m : mstate) : res mstate :=
  if Nat.eqb (g_ensembles g) 0 then Err ZeroDivisionError else
  let chains := map sp_chain (m_samplers m) in
  let nc := (m_nburn m + nw_of g * length (concat chains))%nat in
  let pcomplete := INR nc / totsteps * 100 in
  let last_n := (nw_of g * match rev chains with c :: _ => length c | [] => 0 end)%nat in
  let m1 := mkM (m_oac m) (m_autosamples m) (m_automean m) (m_automin m) (m_automax m) (m_started m) (m_samplers m) (m_inits m)
                (Some chains) nc (m_nburn m) (m_burned m) (m_ismixed m) (m_mixcount m)
                (m_minafactor m) (m_maxarchange m) (m_mintz m) (m_maxgr m) in
  if rltb pcomplete (g_minpercent g) && rleb (INR last_n) (g_minsteps g * INR (nw_of g)) then
    Ok (mkM (m_oac m1) (m_autosamples m1) (m_automean m1) (m_automin m1) (m_automax m1) (m_started m1) (m_samplers m1) (m_inits m1)
            (m_chains m1) nc (m_nburn m1) (m_burned m1) false (m_mixcount m1) (Fin (-1)) PInf (Fin (-1)) PInf)
  else
    do s <- convergence_calculate acor (g_th g) (nw_of g) (g_ndim g) chains (m_oac m);
    do mintz <- py_min (st_tz s);
    do maxgr <- py_max (st_gr s);
    do minaf <- np_min (st_afactor s);
    do maxar <- np_max (st_archange s);
    do mn <- np_min (st_acor s);
    do mx <- np_max (st_acor s);
    let b := m_burned m in
    Ok (mkM (Some (st_acor s))
            (if b then m_autosamples m ++ [length chains * match chains with c :: _ => length c | [] => 0 end]%nat else m_autosamples m)
            (if b then m_automean m ++ [ext_mean (st_acor s)] else m_automean m)
            (if b then m_automin m ++ [mn] else m_automin m)
            (if b then m_automax m ++ [mx] else m_automax m)
            (m_started m) (m_samplers m) (m_inits m) (Some chains) nc (m_nburn m) b
            (st_mixed s) (if st_mixed s then S (m_mixcount m) else 0%nat) minaf maxar mintz maxgr).

(** the sampling part of a round, mcmc.py:360-386 *)
Definition sample_round (m : mstate) : res mstate :=
  do (inp, st) <- first_steps tr 0 (m_started m) (m_inits m) (m_samplers m);
  Ok (mkM (m_oac m) (m_autosamples m) (m_automean m) (m_automin m) (m_automax m) st (domcmc tr 0 (g_check g - 1) inp) (m_inits m)
          (m_chains m) (m_ncomplete m) (m_nburn m) (m_burned m) (m_ismixed m) (m_mixcount m)
          (m_minafactor m) (m_maxarchange m) (m_mintz m) (m_maxgr m)).

(** end of burn-in, mcmc.py:433-446; the comparison operators are <= *)
Definition ext_leb (a b : ext) : bool :=
  match a, b with
  | NaN, _ | _, NaN => false
  | Fin x, Fin y => rleb x y
  | NInf, _ | _, PInf => true
  | _, _ => false
  end.
Definition burn_step (m : mstate) : res mstate :=
  if negb (m_burned m) && (ext_leb (m_maxgr m) (g_burnGR g) || ext_leb (g_burnA g) (m_minafactor m)) then
    do inits <- map_res last_sample (m_samplers m);
    Ok (mkM (m_oac m) (m_autosamples m) (m_automean m) (m_automin m) (m_automax m) (m_started m) (map sp_reset (m_samplers m)) inits
            (m_chains m) (m_ncomplete m) (m_ncomplete m) true (m_ismixed m) (m_mixcount m)
            (m_minafactor m) (m_maxarchange m) (m_mintz m) (m_maxgr m))
  else Ok m.

(** one round up to the point where the state is saved, and the whole round *)
Definition round_to_save (m : mstate) : res mstate := do m1 <- sample_round m; convergence_check m1.
Definition one_round (m : mstate) : res mstate := do m1 <- round_to_save m; burn_step m1.

(** the loop of mcmc.py:357-462: [n] rounds at most *)
Fixpoint rounds (n : nat) (m : mstate) : res mstate :=
  match n with
  | O => Ok m
  | S n' => do m1 <- one_round m; if Nat.leb 2 (m_mixcount m1) then Ok m1 else rounds n' m1
  end.

(** the state before the loop of a run that is not resumed, mcmc.py:228, 325-355.
    [prev] are statevars.chains left by an earlier call in the same process:
    reset() does not clear them. *)
Definition start (inits : list ens) (prev : option (list (list sample))) : mstate :=
  mkM None [] [] [] [] false (repeat new_sampler (g_ensembles g)) inits prev 0 0 false false 0 (Fin (-1)) PInf (Fin (-1)) PInf.

(** ** The DataFrame, mcmc.py:476-485 *)

(** arrays with their shape; get_chain().T has axes (parameter, walker, step) *)
Record arr3 A := mkA3 { d0 : nat; d1 : nat; d2 : nat; at3 : nat -> nat -> nat -> A }.
Arguments mkA3 {A}. Arguments d0 {A}. Arguments d1 {A}. Arguments d2 {A}. Arguments at3 {A}.
Definition chain_T (c : list sample) : arr3 (option R) :=
  mkA3 (g_ndim g) (nw_of g) (length c)
       (fun j w s => match nth_error c s with
                     | Some x => match nth_error (s_pos x) w with Some p => nth_error p j | None => None end
                     | None => None end).
(** get_log_prob().T, as an array with one entry on the first axis *)
Definition lnp_T (c : list sample) : arr3 (option ext) :=
  mkA3 1 (nw_of g) (length c) (fun _ w s => match nth_error c s with Some x => nth_error (s_lnp x) w | None => None end).
(** np.dstack: concatenation along the last axis (np.hstack for the
    log-probabilities, whose last axis is the second) *)
Fixpoint dstack_at {A} (dflt : A) (l : list (arr3 A)) (i j k : nat) : A :=
  match l with
  | [] => dflt
  | a :: r => if Nat.ltb k (d2 a) then at3 a i j k else dstack_at dflt r i j (k - d2 a)
  end.
Definition dstack {A} (dflt : A) (l : list (arr3 A)) : arr3 A :=
  mkA3 (match l with a :: _ => d0 a | [] => 0%nat end) (match l with a :: _ => d1 a | [] => 0%nat end)
       (fold_right (fun a n => (d2 a + n)%nat) 0%nat l) (dstack_at dflt l).
(** reshape(shape0, shape1*shape2), C order *)
Definition reshape_at {A} (a : arr3 A) (i k : nat) : A := at3 a i (k / d2 a) (k mod d2 a).

(** row [k]: the transposed array and the lnprobability column *)
Definition df_row (chains : list (list sample)) (k : nat) : list (option R) * option ext :=
  let ch := dstack None (map chain_T chains) in
  let ln := dstack None (map lnp_T chains) in
  (map (fun j => reshape_at ch j k) (seq 0 (d0 ch)), reshape_at ln 0 k).
Definition df_rows (chains : list (list sample)) : list (list (option R) * option ext) :=
  let ch := dstack None (map chain_T chains) in
  map (df_row chains) (seq 0 (d1 ch * d2 ch)).
(** df.iloc[::thin] *)
Fixpoint every {A} (fuel t : nat) (l : list A) : list A :=
  match fuel, l with
  | O, _ | _, [] => []
  | S f, x :: _ => x :: every f t (skipn t l)
  end.
Definition thinned {A} (t : nat) (l : list A) : res (list A) :=
  match t with O => Err ValueError | _ => Ok (every (length l) t l) end.

(** mcmc() for a new run: final state and returned rows *)
Definition mcmc (inits : list ens) (prev : option (list (list sample)))
  : res (mstate * list (list (option R) * option ext)) :=
  do n <- num_run g;
  do m <- rounds (Z.to_nat n) (start inits prev);
  match m_chains m with
  | None => Err AttributeError
  | Some chains => do df <- thinned (g_thin g) (df_rows chains); Ok (m, df)
  end.
End Mcmc.
