(** Spec for C60, C61: the pipeline as a small state machine, without files and texts. *)
From Coq Require Import String Bool List.
From Verif Require Import Py Mass Status StatusProofs StatusSpec Pipeline.
Import ListNotations.
Open Scope string_scope.

(** texts that a status file can hold (see C46) *)
Definition path_ok (q : string) : Prop := sall plain q = true /\ lstrip q = q /\ q <> "".
Definition reserved : list string := ["run"; "postfile"; "chainfile"; "ns_outdir"; "summaryfile"].
Definition kw_ok (kw : dict string) : Prop :=
  Forall (fun kv => key_ok (lower (fst kv)) /\ val_ok (snd kv) /\ String.prefix "[" (fst kv) = false /\ ~ In (lower (fst kv)) reserved) kw.
Definition cmd_ok (k : cmd) : Prop :=
  match k with
  | Mcmc _ _ _ x => forall s, val_ok (x s)
  | Nested _ _ _ kw => kw_ok kw
  | Ic _ _ t => val_ok t
  | _ => True
  end.

(** what is on disk: the posterior shared by fit and mcmc, the samples of the last mcmc, the
    posterior and the samples of the last nested sampling, the derived samples *)
Record stage := mkStage {
  s_fit : bool; s_post : option pobj; s_mcmc : option nat; s_ns : option (pobj * nat);
  s_derived : option (nat * nat); s_ic : bool; s_plot : bool }.
Definition start : stage := mkStage false None None None None false false.

Definition choose (sampler : string) (mc ns : bool) : res string :=
  if negb (mc || ns) then Err AssertionError
  else if String.eqb sampler "auto" then Ok (if mc then "mcmc" else "ns")
  else if String.eqb sampler "mcmc" then (if mc then Ok "mcmc" else Err ValueError)
  else if String.eqb sampler "ns" then (if ns then Ok "ns" else Err ValueError)
  else Err ValueError.
Definition isome {A} (o : option A) : bool := match o with Some _ => true | None => false end.
Definition pick (sampler : string) (s : stage) : res string := choose sampler (isome (s_mcmc s)) (isome (s_ns s)).
(** posterior and samples of a sampler *)
Definition results (r : string) (s : stage) : option (pobj * nat) :=
  if String.eqb r "mcmc" then match s_post s, s_mcmc s with Some p, Some n => Some (p, n) | _, _ => None end
  else s_ns s.
Definition use (sampler : string) (s : stage) : res used :=
  do r <- pick sampler s;
  match results r s with Some (p, n) => Ok (mkUsed r p n (s_derived s)) | None => Err FileNotFoundError end.

(** why a table or a plot cannot be made *)
Definition table_needs (s : stage) (u : used) (t : ttype) : res unit :=
  match t with
  | TIc => if s_ic s then Ok tt else Err AssertionError
  | TParams => if p_max (u_post u) then Ok tt else Err AttributeError
  | TDerived => if isome (s_derived s) then (if p_max (u_post u) then Ok tt else Err AttributeError) else Err AssertionError
  | _ => Ok tt
  end.
Definition plot_needs (s : stage) (sampler : string) (t : ptype) : res unit :=
  match t with
  | PRv => Ok tt
  | PCorner => do _ <- pick sampler s; Ok tt
  | PAuto | PTrend => do r <- pick sampler s; if String.eqb r "mcmc" then Ok tt else Err AssertionError
  | PDerived => if isome (s_derived s) then Ok tt else Err AssertionError
  end.

Definition with_post (s : stage) (p : pobj) : stage := mkStage (s_fit s) (Some p) (s_mcmc s) (s_ns s) (s_derived s) (s_ic s) (s_plot s).
Fixpoint plot_all (s s0 : stage) (sampler : string) (l : list ptype) : stage * res unit :=
  match l with
  | [] => (s, Ok tt)
  | t :: r => match plot_needs s0 sampler t with
              | Ok _ => plot_all (mkStage (s_fit s) (s_post s) (s_mcmc s) (s_ns s) (s_derived s) (s_ic s) true) s0 sampler r
              | Err e => (s, Err e)
              end
  end.
Definition step (k : cmd) (s : stage) : stage * res unit :=
  match k with
  | Fit n i r =>
      match (do _ <- i; r) with
      | Ok _ => (mkStage true (Some (mkPost n false None)) (s_mcmc s) (s_ns s) (s_derived s) (s_ic s) (s_plot s), Ok tt)
      | Err e => (s, Err e)
      end
  | Mcmc n i r _ =>
      match (do _ <- i; if s_fit s then r else Err PlainException), s_post s with
      | Ok _, Some p => (mkStage (s_fit s) (Some (mkPost n true (p_derived p))) (Some n) (s_ns s) (s_derived s) (s_ic s) (s_plot s), Ok tt)
      | Ok _, None => (s, Err FileNotFoundError)
      | Err e, _ => (s, Err e)
      end
  | Nested n i r _ =>
      match (do _ <- i; r) with
      | Ok _ => (mkStage (s_fit s) (s_post s) (s_mcmc s) (Some (mkPost n true None, n)) (s_derived s) (s_ic s) (s_plot s), Ok tt)
      | Err e => (s, Err e)
      end
  | Derive n sampler i r stellar =>
      match (do x <- pick sampler s; do _ <- i; Ok x) with
      | Err e => (s, Err e)
      | Ok x =>
          match results x s with
          | None => (s, Err FileNotFoundError)
          | Some (p, ch) =>
              if negb stellar then (s, Ok tt)
              else match r with
                   | Err e => (s, Err e)
                   | Ok _ =>
                       let p' := mkPost (p_run p) (p_max p) (Some n) in
                       (mkStage (s_fit s) (if String.eqb x "mcmc" then Some p' else s_post s) (s_mcmc s)
                          (if String.eqb x "mcmc" then s_ns s else Some (p', ch)) (Some (n, ch)) (s_ic s) (s_plot s), Ok tt)
                   end
          end
      end
  | Ic i r _ =>
      match (do _ <- i; if s_fit s then r else Err PlainException) with
      | Ok _ => (mkStage (s_fit s) (s_post s) (s_mcmc s) (s_ns s) (s_derived s) true (s_plot s), Ok tt)
      | Err e => (s, Err e)
      end
  | Tables sampler l i =>
      match (do _ <- i; use sampler s) with
      | Err e => (s, Err e)
      | Ok u => (s, for_each l (fun _ t => table_needs s u t) tt)
      end
  | Plots sampler l i =>
      match (do _ <- i; if s_fit s then Ok tt else Err PlainException) with
      | Err e => (s, Err e)
      | Ok _ => plot_all s s sampler l
      end
  | Report sampler i =>
      match (do r <- pick sampler s; do _ <- i; use sampler s) with
      | Err e => (s, Err e)
      | Ok u => (s, if negb (s_plot s) then Err PlainException else if p_max (u_post u) then Ok tt else Err AttributeError)
      end
  end.
Fixpoint steps (l : list cmd) (s : stage) : stage :=
  match l with [] => s | k :: r => steps r (fst (step k s)) end.

(** ** Histories *)
Notation ok := (Ok tt).
Definition fit_done (l : list cmd) : Prop := exists n, In (Fit n ok ok) l.
Definition mcmc_done (l : list cmd) : Prop := exists l1 l2 n x, l = (l1 ++ Mcmc n ok ok x :: l2)%list /\ fit_done l1.
Definition ns_done (l : list cmd) : Prop := exists n kw, In (Nested n ok ok kw) l.
(** a request that the recorded results can serve *)
Definition served (sampler : string) (l : list cmd) : Prop :=
  sampler = "auto" /\ (mcmc_done l \/ ns_done l) \/ sampler = "mcmc" /\ mcmc_done l \/ sampler = "ns" /\ ns_done l.
Definition derive_done (l : list cmd) : Prop :=
  exists l1 l2 n s, l = (l1 ++ Derive n s ok ok true :: l2)%list /\ served s l1.
Definition ic_done (l : list cmd) : Prop := exists l1 l2 t, l = (l1 ++ Ic ok ok t :: l2)%list /\ fit_done l1.
(** commands that write only if they succeed *)
Definition computing (k : cmd) : Prop := match k with Tables _ _ _ | Plots _ _ _ | Report _ _ => False | _ => True end.
(** the oracles of a command do not raise FileNotFoundError themselves *)
Definition fair (r : res unit) : Prop := r <> Err FileNotFoundError.
Definition cmd_fair (k : cmd) : Prop :=
  match k with
  | Fit _ i r | Mcmc _ i r _ | Nested _ i r _ | Derive _ _ i r _ | Ic i r _ => fair i /\ fair r
  | Tables _ _ i | Plots _ _ i | Report _ i => fair i
  end.

(** a table or report made from one and the same run *)
Definition one_run (u : used) : Prop :=
  p_run (u_post u) = u_chain u /\ forall d from, u_derived u = Some (d, from) -> from = u_chain u.
(** commands that can succeed in replacing results *)
Definition may_fit (k : cmd) : bool := match k with Fit _ (Ok _) (Ok _) => true | _ => false end.
Definition may_mcmc (k : cmd) : bool := match k with Mcmc _ (Ok _) (Ok _) _ => true | _ => false end.
Definition may_ns (k : cmd) : bool := match k with Nested _ (Ok _) (Ok _) _ => true | _ => false end.
Definition may_derive (k : cmd) : bool := match k with Derive _ _ (Ok _) (Ok _) true => true | _ => false end.
Definition none (f : cmd -> bool) (l : list cmd) : Prop := forall k, In k l -> f k = false.
(** the results that a request is served with *)
Definition chosen (sampler : string) (l : list cmd) (r : string) : Prop :=
  r = "mcmc" /\ mcmc_done l /\ (sampler = "mcmc" \/ sampler = "auto") \/
  r = "ns" /\ ns_done l /\ (sampler = "ns" \/ sampler = "auto" /\ ~ mcmc_done l).
