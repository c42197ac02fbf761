(** The rounds of radvel.mcmc.mcmc with its samplers and posteriors as objects, in one process
    and in several: radvel/mcmc.py:176-188, 363-392.

    Simplifications: emcee's EnsembleSampler is any deterministic program that may call
    post.logprob_array and has its random generator in its own state (emcee gives every sampler
    its own); what lies between two rounds (convergence_check, the saving of chains, the reset
    after burn-in and the decision to stop, mcmc.py:394-456) is any function of the samplers and
    of the state of the run, but not of the posteriors and the time.  Pickling a sampler copies the posterior
    it refers to.  mp.Pool.map of n inputs on n workers sends every input by itself (chunks of 1).
    Which error map raises if several workers fail is an oracle. *)
From Coq Require Import Reals String Arith Bool List.
From Verif Require Import Py.
Import ListNotations.
Open Scope nat_scope.

(** a program that calls the log-probability at some points: sampler.sample and sampler.run_mcmc *)
Inductive prog (A : Type) :=
| Ret (a : A)
| Fail (e : exn)
| Ask (x : list (option R)) (k : ext -> prog A).
Arguments Ret {A} a. Arguments Fail {A} e. Arguments Ask {A} x k.

Section Run.
  (** a sampler without its posterior; positions of the walkers; the state of the run; a posterior *)
  Variables (Smp Pos G PS : Type).
  (** post.logprob_array; an error leaves the posterior in some state too *)
  Variable eval : PS -> list (option R) -> PS * res ext.
  (** p1 of a sampler, mcmc.py:368-372 *)
  Variable where_from : nat -> G -> Smp -> res (G * Pos).
  (** sampler.sample(p1, store=True) *)
  Variable one : Pos -> Smp -> prog Smp.
  (** sampler.run_mcmc(p1, checkinterval - 1) *)
  Variable many : Pos -> Smp -> prog Smp.
  (** mcmc.py:394-456; true: stop *)
  Variable between : G -> list Smp -> res (G * list Smp * bool).
  (** the error that pool.map raises *)
  Variable raised : list exn -> exn.

  Fixpoint exec {A} (p : prog A) (ps : PS) : PS * res A :=
    match p with
    | Ret a => (ps, Ok a)
    | Fail e => (ps, Err e)
    | Ask x k => let '(ps1, r) := eval ps x in match r with Ok y => exec (k y) ps1 | Err e => (ps1, Err e) end
    end.

  (** the posteriors of this process; a sampler refers to one by its place *)
  Definition heap := list PS.
  Definition put (h : heap) (o : nat) (ps : PS) : heap := firstn o h ++ ps :: skipn (S o) h.
  Definition exec_on {A} (p : prog A) (o : nat) (h : heap) : heap * res A :=
    match nth_error h o with
    | None => (h, Err IndexError)
    | Some ps => let '(ps1, r) := exec p ps in (put h o ps1, r)
    end.
  Record obj := mkObj { o_smp : Smp; o_post : nat }.

  (** mcmc.py:366-375: mcmc_input_array *)
  Fixpoint first_steps (i : nat) (g : G) (ss : list obj) (h : heap) : heap * res (G * list (obj * Pos)) :=
    match ss with
    | [] => (h, Ok (g, []))
    | s :: ss' =>
        match where_from i g (o_smp s) with
        | Err e => (h, Err e)
        | Ok (g1, p) =>
            let '(h1, r) := exec_on (one p (o_smp s)) (o_post s) h in
            match r with
            | Err e => (h1, Err e)
            | Ok s1 => let '(h2, r) := first_steps (S i) g1 ss' h1 in
                       (h2, do (g2, l) <- r; Ok (g2, (mkObj s1 (o_post s), p) :: l))
            end
        end
    end.

  (** mcmc.py:377-381: _domcmc (mcmc.py:176-188) of one input after the other *)
  Fixpoint in_turn (inp : list (obj * Pos)) (h : heap) : heap * res (list obj) :=
    match inp with
    | [] => (h, Ok [])
    | (s, p) :: inp' =>
        let '(h1, r) := exec_on (many p (o_smp s)) (o_post s) h in
        match r with
        | Err e => (h1, Err e)
        | Ok s1 => let '(h2, r) := in_turn inp' h1 in (h2, do l <- r; Ok (mkObj s1 (o_post s) :: l))
        end
    end.

  (** a worker: its own copy of the posterior *)
  Definition worker (h : heap) (i : obj * Pos) : res (Smp * PS) :=
    match nth_error h (o_post (fst i)) with
    | None => Err IndexError
    | Some ps => let '(ps1, r) := exec (many (snd i) (o_smp (fst i))) ps in do s <- r; Ok (s, ps1)
    end.
  Fixpoint errors {A} (l : list (res A)) : list exn :=
    match l with [] => [] | Ok _ :: l' => errors l' | Err e :: l' => e :: errors l' end.
  Fixpoint values {A} (l : list (res A)) : list A :=
    match l with [] => [] | Ok a :: l' => a :: values l' | Err _ :: l' => values l' end.
  (** the samplers that come back, each with a posterior that is a new object of this process *)
  Fixpoint received (l : list (Smp * PS)) (h : heap) : heap * list obj :=
    match l with
    | [] => (h, [])
    | (s, ps) :: l' => let '(h1, r) := received l' (h ++ [ps]) in (h1, mkObj s (length h) :: r)
    end.
  (** mcmc.py:382-386: pool.map(_domcmc, mcmc_input_array) *)
  Definition in_pool (inp : list (obj * Pos)) (h : heap) : heap * res (list obj) :=
    let outs := map (worker h) inp in
    match errors outs with
    | [] => let '(h1, l) := received (values outs) h in (h1, Ok l)
    | es => (h, Err (raised es))
    end.

  (** mcmc.py:363-456: at most [n] rounds *)
  Fixpoint rounds (serial : bool) (n : nat) (g : G) (ss : list obj) (h : heap) : heap * res (G * list obj) :=
    match n with
    | O => (h, Ok (g, ss))
    | S n' =>
        let '(h1, r) := first_steps 0 g ss h in
        match r with
        | Err e => (h1, Err e)
        | Ok (g1, inp) =>
            let '(h2, r) := if serial then in_turn inp h1 else in_pool inp h1 in
            match r with
            | Err e => (h2, Err e)
            | Ok ss1 =>
                match between g1 (map o_smp ss1) with
                | Err e => (h2, Err e)
                | Ok (g2, sm, stop) =>
                    let ss2 := map (fun x => mkObj (fst x) (o_post (snd x))) (combine sm ss1) in
                    if stop then (h2, Ok (g2, ss2)) else rounds serial n' g2 ss2 h2
                end
            end
        end
    end.

  (** mcmc.py:323-334, 363-456: every sampler is made with the posterior given *)
  Definition sampling (serial : bool) (n : nat) (g : G) (ss : list Smp) (post : PS) : heap * res (G * list Smp) :=
    let '(h, r) := rounds serial n g (map (fun s => mkObj s 0) ss) [post] in
    (h, do (g, l) <- r; Ok (g, map o_smp l)).
End Run.
Arguments mkObj {Smp} o_smp o_post. Arguments o_smp {Smp} o. Arguments o_post {Smp} o.
