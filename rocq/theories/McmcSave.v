(** Saving and resuming an MCMC run: radvel/mcmc.py:227-262, 292-344, 348-355, 388-431.

    An HDF5 file is a dictionary of named datasets.  Deleting or creating one dataset
    is taken to be atomic and durable; a crash is a prefix of these operations.  (What
    HDF5 itself leaves behind when a process dies inside one operation is not modelled.) *)
From Coq Require Import Reals String Arith ZArith Bool List.
From Verif Require Import Py PyFloat Params Mcmc.
Import ListNotations.
Open Scope string_scope.

(** contents of a dataset *)
Inductive dset :=
| DPos (l : list ens)            (* i_chain: steps x walkers x parameters *)
| DLnp (l : list (list ext))     (* i_log_prob: steps x walkers *)
| DAcc (l : list nat)            (* i_accepted *)
| DF (l : list ext)              (* crit, automin, automean, automax *)
| DN (l : list nat).             (* autosample, burned *)
Definition h5 := dict dset.

Definition k_chain (i : nat) : string := str_nat i ++ "_chain".
Definition k_lnp (i : nat) : string := str_nat i ++ "_log_prob".
Definition k_acc (i : nat) : string := str_nat i ++ "_accepted".
Definition common_keys : list string := ["crit"; "autosample"; "automin"; "automean"; "automax"; "burned"].

(** "if k in h5f.keys(): del h5f[k]" and create_dataset, which refuses an existing name *)
Inductive op := DelIf (k : string) | Create (k : string) (v : dset).
Definition do_op (o : op) (f : h5) : res h5 :=
  match o with
  | DelIf k => Ok (if dmem f k then dremove f k else f)
  | Create k v => if dmem f k then Err ValueError else Ok (Py.dset f k v)
  end.
Fixpoint run_ops (l : list op) (f : h5) : res h5 :=
  match l with [] => Ok f | o :: r => do f1 <- do_op o f; run_ops r f1 end.

(** the body of the loop over the samplers, mcmc.py:389-431 *)
Definition sampler_dels (i : nat) : list op :=
  map DelIf ([k_chain i; k_lnp i; k_acc i] ++ common_keys).
Definition sampler_creates (m : mstate) (i : nat) (s : sampler) : list op :=
  [Create (k_chain i) (DPos (map s_pos (sp_chain s)));
   Create (k_lnp i) (DLnp (map s_lnp (sp_chain s)));
   Create (k_acc i) (DAcc (sp_acc s));
   Create "crit" (DF [m_minafactor m; m_maxarchange m; m_mintz m; m_maxgr m]);
   Create "autosample" (DN (m_autosamples m));
   Create "automin" (DF (m_automin m));
   Create "automean" (DF (m_automean m));
   Create "automax" (DF (m_automax m));
   Create "burned" (DN [if m_burned m then m_nburn m else 0%nat])].
Definition sampler_ops (m : mstate) (i : nat) (s : sampler) : list op := sampler_dels i ++ sampler_creates m i s.
Fixpoint save_from (m : mstate) (i : nat) (sps : list sampler) : list op :=
  match sps with [] => [] | s :: r => sampler_ops m i s ++ save_from m (S i) r end.
Definition save_ops (m : mstate) : list op := save_from m 0 (m_samplers m).
(** one save; None of the operations is a no-op on the file object itself *)
Definition save (m : mstate) (f : h5) : res h5 := run_ops (save_ops m) f.

(** ** Loading, mcmc.py:236-262 *)
Definition as_pos (d : dset) : res (list ens) := match d with DPos l => Ok l | _ => Err TypeError end.
Definition as_lnp (d : dset) : res (list (list ext)) := match d with DLnp l => Ok l | _ => Err TypeError end.
Definition as_acc (d : dset) : res (list nat) := match d with DAcc l => Ok l | _ => Err TypeError end.
Definition as_f (d : dset) : res (list ext) := match d with DF l => Ok l | _ => Err TypeError end.
Definition as_n (d : dset) : res (list nat) := match d with DN l => Ok l | _ => Err TypeError end.
Definition item {A} (l : list A) (i : nat) : res A := match nth_error l i with Some x => Ok x | None => Err IndexError end.

Record loaded := mkL { l_chains : list (list ens); l_lnps : list (list (list ext)); l_accs : list (list nat);
  l_burned : nat; l_crit : list ext; l_autosample : list nat; l_automin : list ext; l_automean : list ext; l_automax : list ext }.

Definition get {A} (f : h5) (k : string) (conv : dset -> res A) : res A := do d <- dget_res f k; conv d.
(** int((len(h5p.keys()) - 6)/3) chains; a negative fraction truncates to 0 as does
    the subtraction on nat (and some key is missing then) *)
Definition load (f : h5) : res loaded :=
  do b <- get f "burned" as_n;
  do b0 <- item b 0;
  do crit <- get f "crit" as_f;
  do c0 <- item crit 0; do c1 <- item crit 1; do c2 <- item crit 2; do c3 <- item crit 3;
  do au <- get f "autosample" as_n;
  do amin <- get f "automin" as_f;
  do amean <- get f "automean" as_f;
  do amax <- get f "automax" as_f;
  let ns := seq 0 ((length f - 6) / 3) in
  do per <- map_res (fun i => do c <- get f (k_chain i) as_pos; do p <- get f (k_lnp i) as_lnp; do a <- get f (k_acc i) as_acc; Ok (c, p, a)) ns;
  Ok (mkL (map (fun x => fst (fst x)) per) (map (fun x => snd (fst x)) per) (map snd per) b0 crit au amin amean amax).

(** the check of mcmc.py:292-296: number of keys and the shape of 0_chain *)
Definition shape12 (l : list ens) : nat * nat :=
  match l with x :: _ => (length x, match x with w :: _ => length w | [] => 0%nat end) | [] => (0%nat, 0%nat) end.
Definition check_file (g : mcfg) (f : h5) : res unit :=
  if negb (Nat.eqb (length f) (3 * g_ensembles g + 6)) then Err ValueError
  else do c <- get f (k_chain 0) as_pos;
       let '(w, d) := shape12 c in
       if negb (Nat.eqb d (g_ndim g)) || negb (Nat.eqb w (nw_of g)) then Err ValueError else Ok tt.

Fixpoint zip_samples (c : list ens) (p : list (list ext)) : list sample :=
  match c, p with x :: c', y :: p' => mkS x y :: zip_samples c' p' | _, _ => [] end.
Definition last_pos (c : list ens) : res ens := match rev c with x :: _ => Ok x | [] => Err IndexError end.

(** the state before the loop of a resumed run, mcmc.py:325-355.  [calls] stands for
    the state of the new process's random number generators.  statevars.minafactor and
    maxarchange keep the loaded values, mintz and maxgr are reset (mcmc.py:360-363). *)
Definition resume (g : mcfg) (f : h5) (calls : nat) : res mstate :=
  do l <- load f;
  do _ <- check_file g f;
  do chains <- map_res (fun e => item (l_chains l) e) (seq 0 (g_ensembles g));
  do inits <- map_res last_pos chains;
  do sps <- map_res (fun i => do c <- item (l_chains l) i; do p <- item (l_lnps l) i; do a <- item (l_accs l) i;
                              Ok (mkSp (zip_samples c p) a calls)) (seq 0 (g_ensembles g));
  do c0 <- item (l_crit l) 0;
  do c1 <- item (l_crit l) 1;
  let b := negb (Nat.eqb (l_burned l) 0) in
  Ok (mkM None (l_autosample l) (l_automean l) (l_automin l) (l_automax l) false sps inits None (l_burned l) (l_burned l) b false 0
          c0 c1 (Fin (-1)) PInf).
