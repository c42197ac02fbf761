(** Model of the pipeline commands of radvel/driver.py (fit, mcmc, nested_sampling, derive,
    ic_compare, tables, plots, report) as far as they read and write files: what each
    command demands of the status file, which files it reads, what it writes.

    Simplifications.  All commands are given the same setup file and output directory and
    are run in the same working directory, so a path recorded with os.path.relpath denotes the
    file that was written; [q] is os.path.join(args.outputdir, conf_base).  The content of a
    file is reduced to where it comes from: [n] is the number of the command that computed
    it.  initialize_posterior and the samplers, optimiser and plotting code are oracles:
    they return or raise.  Command line keywords of `plot` are empty. *)
From Coq Require Import String Ascii Arith Bool List.
From Verif Require Import Py Params Mass Status.
Import ListNotations.
Open Scope string_scope.

(** a pickled posterior: the command whose fit gave its values, whether it has the
    attributes uparams, medparams and maxparams of a sampler run, and the derive command
    whose quantiles are in its attribute [derived] *)
Record pobj := mkPost { p_run : nat; p_max : bool; p_derived : option nat }.
Inductive content :=
| CPost (p : pobj)
| CChain (n : nat)                (* samples of run n *)
| CDerived (n from : nat)         (* made by derive command n from the samples of run [from] *)
| CText.                          (* csv, tex and pdf files that no command reads back *)
Record world := mkW { w_status : option string; w_files : dict content }.

(** a command changes the world and returns or raises; what was written before an exception stays *)
Definition M (A : Type) := world -> world * res A.
Definition mret {A} (a : A) : M A := fun w => (w, Ok a).
Definition mbind {A B} (m : M A) (f : A -> M B) : M B :=
  fun w => let '(w', r) := m w in match r with Ok a => f a w' | Err e => (w', Err e) end.
Notation "'dom' x <- m ; k" := (mbind m (fun x => k)) (at level 200, x pattern, m at level 100, k at level 200).
Definition mlift {A} (r : res A) : M A := fun w => (w, r).
Definition mraise {A} (e : exn) : M A := mlift (Err e).
Definition massert (b : bool) : M unit := if b then mret tt else mraise AssertionError.
Fixpoint meach {A} (l : list A) (f : A -> M unit) : M unit :=
  match l with [] => mret tt | x :: r => dom _ <- f x; meach r f end.

Definition put (path : string) (c : content) : M unit := fun w => (mkW (w_status w) (dset (w_files w) path c), Ok tt).
Definition status_now : M config := fun w => (w, load_status (w_status w)).
Definition save (sec : string) (vars : dict string) : M unit :=
  fun w => let '(f, r) := save_status (w_status w) sec vars in (mkW f (w_files w), r).
(** radvel.posterior.load, pd.read_csv; a file of another kind raises *)
Definition load_post (path : string) : M pobj := fun w =>
  (w, match dget (w_files w) path with Some (CPost p) => Ok p | Some _ => Err PlainException | None => Err FileNotFoundError end).
Definition read_chain (path : string) : M nat := fun w =>
  (w, match dget (w_files w) path with Some (CChain n) => Ok n | Some _ => Err PlainException | None => Err FileNotFoundError end).
Definition read_derived (path : string) : M (nat * nat) := fun w =>
  (w, match dget (w_files w) path with Some (CDerived n m) => Ok (n, m) | Some _ => Err PlainException | None => Err FileNotFoundError end).

(** file names *)
Definition f_post (q : string) : string := q ++ "_post_obj.pkl".
Definition f_post_ns (q : string) : string := q ++ "_post_obj_ns.pkl".
Definition f_chain (q : string) : string := q ++ "_chains.csv.bz2".
Definition f_chain_ns (q : string) : string := q ++ "_chains_ns.csv.bz2".
Definition f_summary (q : string) : string := q ++ "_post_summary.csv".
Definition f_summary_ns (q : string) : string := q ++ "_post_summary_ns.csv".
Definition f_auto (q : string) : string := q ++ "_autocorr.csv".
Definition f_dquant (q : string) : string := q ++ "_derived_quantiles.csv".
Definition f_dchain (q : string) : string := q ++ "_derived.csv.bz2".
Definition f_nsdir (q : string) : string := q ++ "_ns".

(** fit, driver.py:139-162.  maxlike_fitting returns the posterior made from the setup file *)
Definition fit (q : string) (n : nat) (init run : res unit) : M unit :=
  dom _ <- mlift init;
  dom _ <- mlift run;
  dom _ <- put (f_post q) (CPost (mkPost n false None));
  save "fit" [("run", "True"); ("postfile", f_post q)].

(** driver.py:230-248; [x] gives the texts of the numbers *)
Definition mcmc_vars (q : string) (x : string -> string) : dict string :=
  ([("run", "True"); ("postfile", f_post q); ("chainfile", f_chain q); ("autocorrfile", f_auto q); ("summaryfile", f_summary q)] ++
   map (fun k => (k, x k)) ["nwalkers"; "nensembles"; "maxsteps"; "nsteps"; "nburn"; "minafactor"; "maxarchange"; "minTz"; "maxGR"])%list.
(** mcmc, driver.py:165-250.  sampling_postprocessing and maxlike_fitting keep the loaded
    object and with it the attribute [derived] *)
Definition mcmc (q : string) (n : nat) (init run : res unit) (x : string -> string) : M unit :=
  dom c <- status_now;
  dom _ <- mlift init;
  dom done <- mlift (getboolean c "fit" "run");
  dom p <- (if done then dom f <- mlift (cfg_get c "fit" "postfile"); load_post f
            else mret (mkPost n false None));
  dom _ <- mlift run;
  dom _ <- put (f_summary q) CText;
  dom _ <- put (f_post q) (CPost (mkPost n true (p_derived p)));
  dom _ <- put (f_chain q) (CChain n);
  dom _ <- put (f_auto q) CText;
  save "mcmc" (mcmc_vars q x).

(** nested_sampling, driver.py:343-395: always from the setup file; [kw] are the sampler
    and run keywords as they are after the run *)
Definition ns_vars (q : string) (kw : dict string) : dict string :=
  dupdate [("run", "True"); ("postfile", f_post_ns q); ("chainfile", f_chain_ns q); ("ns_outdir", f_nsdir q);
           ("summaryfile", f_summary_ns q)] kw.
Definition nested (q : string) (n : nat) (init run : res unit) (kw : dict string) : M unit :=
  dom _ <- status_now;
  dom _ <- mlift init;
  dom _ <- mlift run;
  dom _ <- put (f_summary_ns q) CText;
  dom _ <- put (f_post_ns q) (CPost (mkPost n true None));
  dom _ <- put (f_chain_ns q) (CChain n);
  save "ns" (ns_vars q kw).

(** derive, driver.py:566-684; [stellar]: the setup file has stellar parameters, otherwise
    the command only prints a message *)
Definition derive (q : string) (n : nat) (sampler : string) (init run : res unit) (stellar : bool) : M unit :=
  dom c <- status_now;
  dom s <- mlift (pick_sampler sampler c);
  dom _ <- mlift init;
  dom pf <- mlift (cfg_get c s "postfile");
  dom p <- load_post pf;
  dom cf <- mlift (cfg_get c s "chainfile");
  dom ch <- read_chain cf;
  if negb stellar then mret tt else
  dom _ <- mlift run;
  dom _ <- put (f_dquant q) CText;
  dom _ <- put pf (CPost (mkPost (p_run p) (p_max p) (Some n)));
  dom _ <- put (f_dchain q) (CDerived n ch);
  save "derive" [("run", "True"); ("quantfile", f_dquant q); ("chainfile", f_dchain q)].

(** ic_compare, driver.py:398-459; [stats]: the text of the list of results *)
Definition ic (q : string) (init run : res unit) (stats : string) : M unit :=
  dom c <- status_now;
  dom _ <- mlift init;
  dom done <- mlift (getboolean c "fit" "run");
  dom _ <- massert done;
  dom f <- mlift (cfg_get c "fit" "postfile");
  dom _ <- load_post f;
  dom _ <- mlift run;
  save "ic_compare" [("ic", stats)].

(** what tables, reports and plots are made from *)
Record used := mkUsed { u_sampler : string; u_post : pobj; u_chain : nat; u_derived : option (nat * nat) }.

(** the part common to tables and report, driver.py:476-504, 708-732 *)
Definition gather (c : config) (s : string) : M used :=
  dom _ <- (if String.eqb s "mcmc" then
              dom _ <- mlift (cfg_get c "mcmc" "minafactor");
              dom _ <- mlift (cfg_get c "mcmc" "maxarchange");
              dom _ <- mlift (cfg_get c "mcmc" "maxgr");
              dom _ <- mlift (cfg_get c "mcmc" "mintz"); mret tt
            else mret tt);
  dom cf <- mlift (cfg_get c s "chainfile");
  dom ch <- read_chain cf;
  dom pf <- mlift (cfg_get c s "postfile");
  dom p <- load_post pf;
  dom d <- (if has_section c "derive" then
              dom b <- mlift (getboolean c "derive" "run");
              if b then dom df <- mlift (cfg_get c "derive" "chainfile"); dom d <- read_derived df; mret (Some d)
              else mret None
            else mret None);
  mret (mkUsed s p ch d).

Inductive ttype := TParams | TPriors | TRv | TIc | TDerived | TCrit.
Definition ttext (t : ttype) : string :=
  match t with TParams => "params" | TPriors => "priors" | TRv => "rv" | TIc => "ic_compare" | TDerived => "derived" | TCrit => "crit" end.
(** config.has_option *)
Definition has_option (c : config) (sec opt : string) : bool :=
  match cfg_get c sec opt with Ok _ => true | Err _ => false end.
(** post.maxparams *)
Definition need_max (p : pobj) : M unit := if p_max p then mret tt else mraise AttributeError.
(** one table, driver.py:509-537 (the text is CText) *)
Definition table_one (q : string) (c : config) (u : used) (t : ttype) : M unit :=
  dom _ <- (match t with
            | TIc => massert (has_option c "ic_compare" "ic")
            | TParams => need_max (u_post u)
            | TDerived => dom _ <- massert (has_option c "derive" "run");
                          match u_derived u with Some _ => need_max (u_post u) | None => mret tt end
            | _ => mret tt
            end);
  dom _ <- put (q ++ "_" ++ ttext t ++ ".tex") CText;
  save "table" [(ttext t ++ "_tex", q ++ "_" ++ ttext t ++ ".tex")].
(** tables, driver.py:462-537 *)
Definition tables (q : string) (sampler : string) (types : list ttype) (init : res unit) : M used :=
  dom c <- status_now;
  dom _ <- mlift init;
  dom s <- mlift (pick_sampler sampler c);
  dom u <- gather c s;
  dom _ <- meach types (table_one q c u);
  mret u.

(** report, driver.py:687-757; all tables are made, the plots of section [plot] are copied *)
Definition report (q : string) (sampler : string) (init : res unit) : M used :=
  dom c <- status_now;
  dom s <- mlift (pick_sampler sampler c);
  dom _ <- mlift init;
  dom u <- gather c s;
  dom _ <- (if has_section c "plot" then mret tt else mraise PlainException);
  dom _ <- need_max (u_post u);
  dom _ <- put (q ++ "_results.tex") CText;
  dom _ <- put (q ++ "_results.pdf") CText;
  mret u.

Inductive ptype := PRv | PAuto | PCorner | PTrend | PDerived.
Definition ptext (t : ptype) : string :=
  match t with PRv => "rv" | PAuto => "auto" | PCorner => "corner" | PTrend => "trend" | PDerived => "derived" end.
Definition pfile (q : string) (t : ptype) : string :=
  q ++ match t with PRv => "_rv_multipanel.pdf" | PAuto => "_auto.pdf" | PCorner => "_corner.pdf" | PTrend => "_trends.pdf"
       | PDerived => "_corner_derived_pars.pdf" end.
(** driver.py:87-97 *)
Definition plot_chain (c : config) (sampler : string) (corner : bool) : M unit :=
  dom s <- mlift (pick_sampler sampler c);
  dom _ <- (if corner then dom b <- mlift (getboolean c s "run"); massert b
            else dom _ <- massert (String.eqb s "mcmc"); dom _ <- mlift (cfg_get c s "autocorrfile"); mret tt);
  dom cf <- mlift (cfg_get c s "chainfile");
  dom _ <- read_chain cf;
  mret tt.
(** one plot, driver.py:53-136 *)
Definition plot_one (q : string) (c : config) (sampler : string) (t : ptype) : M unit :=
  dom _ <- (match t with
            | PRv => mret tt
            | PAuto => plot_chain c sampler false
            | PCorner => plot_chain c sampler true
            | PTrend => dom _ <- plot_chain c sampler false;
                        dom _ <- mlift (cfg_get c "mcmc" "nwalkers"); dom _ <- mlift (cfg_get c "mcmc" "nensembles"); mret tt
            | PDerived => dom _ <- massert (has_section c "derive");
                          dom df <- mlift (cfg_get c "derive" "chainfile"); dom _ <- read_derived df; mret tt
            end);
  dom _ <- put (pfile q t) CText;
  save "plot" [(ptext t ++ "_plot", pfile q t)].
(** plots, driver.py:31-136 *)
Definition plots (q : string) (sampler : string) (types : list ptype) (init : res unit) : M unit :=
  dom c <- status_now;
  dom _ <- mlift init;
  dom done <- mlift (getboolean c "fit" "run");
  dom _ <- massert done;
  dom f <- mlift (cfg_get c "fit" "postfile");
  dom _ <- load_post f;
  meach types (plot_one q c sampler).

(** a session: commands in any order; after one that raises the next is run all the same *)
Inductive cmd :=
| Fit (n : nat) (init run : res unit)
| Mcmc (n : nat) (init run : res unit) (x : string -> string)
| Nested (n : nat) (init run : res unit) (kw : dict string)
| Derive (n : nat) (sampler : string) (init run : res unit) (stellar : bool)
| Ic (init run : res unit) (stats : string)
| Tables (sampler : string) (types : list ttype) (init : res unit)
| Plots (sampler : string) (types : list ptype) (init : res unit)
| Report (sampler : string) (init : res unit).
Definition forget {A} (m : M A) : M unit := dom _ <- m; mret tt.
Definition exec (q : string) (k : cmd) : M unit :=
  match k with
  | Fit n i r => fit q n i r
  | Mcmc n i r x => mcmc q n i r x
  | Nested n i r kw => nested q n i r kw
  | Derive n s i r st => derive q n s i r st
  | Ic i r t => ic q i r t
  | Tables s ts i => forget (tables q s ts i)
  | Plots s ts i => plots q s ts i
  | Report s i => forget (report q s i)
  end.
Fixpoint session (q : string) (l : list cmd) (w : world) : world :=
  match l with [] => w | k :: r => session q r (fst (exec q k w)) end.
Definition empty_world : world := mkW None [].
