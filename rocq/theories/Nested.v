(** Nested sampling driver: radvel/nested_sampling.py:13-450 (the four back ends, run,
    load_results).  The sampling packages are arguments: arbitrary functions of the
    keyword arguments they are given and of the file system.  Failing imports of a
    package are not modelled. *)
From Coq Require Import Reals String Bool List.
From Verif Require Import Py PyFloat Mass.
Import ListNotations.
Open Scope string_scope.

(** values of keyword arguments *)
Inductive pyval := PNone | PBool (b : bool) | PStr (s : string) | POther (n : nat).
Definition kwargs := dict pyval.

(** a DataFrame *)
Record frame := mkFrame { f_cols : list string; f_rows : list (list ext) }.
(** an HDF5 file with scalar datasets and at most one stored frame (key "samples");
    anything else is [FOther] *)
Inductive file := FH5 (dsets : dict R) (fr : option frame) | FOther (n : nat).
Record world := mkWorld { w_files : string -> option file; w_dirs : string -> bool }.

Definition is_some {A} (o : option A) : bool := match o with Some _ => true | None => false end.
(** os.path.exists *)
Definition exists_path (w : world) (p : string) : bool := is_some (w_files w p) || w_dirs w p.
(** os.path.join for a relative second part and a first part without final slash *)
Definition join (a b : string) : string := a ++ "/" ++ b.
Definition put_file (w : world) (p : string) (f : file) : world :=
  mkWorld (fun q => if String.eqb q p then Some f else w_files w q) (w_dirs w).
(** os.makedirs (parents are not modelled) *)
Definition makedirs (exist_ok : bool) (d : string) (w : world) : world * res unit :=
  if exists_path w d then (w, if exist_ok && w_dirs w d then Ok tt else Err FileExistsError)
  else (mkWorld (w_files w) (fun q => String.eqb q d || w_dirs w q), Ok tt).
(** shutil.rmtree *)
Definition inside (d p : string) : bool := String.prefix (d ++ "/") p.
Definition rmtree (d : string) (w : world) : world * res unit :=
  if w_dirs w d then
    (mkWorld (fun q => if inside d q then None else w_files w q)
             (fun q => if String.eqb q d || inside d q then false else w_dirs w q), Ok tt)
  else (w, Err FileNotFoundError).

(** what a package returns *)
Record nsres := mkNs { ns_samples : list (list R); ns_lnZ : R; ns_lnZerr : R }.
Record package := mkPkg {
  pk_new : kwargs -> world -> world * res unit;        (** constructor of the sampler *)
  pk_restore : string -> world -> world * res unit;    (** dynesty's restore(file) *)
  pk_run : kwargs -> world -> world * res nsres;        (** run and read the results *)
  pk_save : string -> world -> world * res unit }.      (** dynesty's save(file) *)
Record packages := mkPkgs { p_static : package; p_dynamic : package; p_ultranest : package; p_multinest : package; p_nautilus : package }.

(** The state of a back end: the file system and the two keyword dictionaries it works on. *)
Record st := mkSt { s_w : world; s_sk : kwargs; s_rk : kwargs }.
Definition M (A : Type) := st -> st * res A.
Definition ret {A} (a : A) : M A := fun s => (s, Ok a).
Definition fail {A} (e : exn) : M A := fun s => (s, Err e).
Definition mbind {A B} (m : M A) (k : A -> M B) : M B :=
  fun s => match m s with (s1, Ok a) => k a s1 | (s1, Err e) => (s1, Err e) end.
Notation "x <~ m ; k" := (mbind m (fun x => k)) (at level 61, m at next level, right associativity).
Notation "m ;~ k" := (mbind m (fun _ => k)) (at level 61, right associativity).
Definition get {A} (f : st -> A) : M A := fun s => (s, Ok (f s)).
Definition call {A} (f : world -> world * res A) : M A :=
  fun s => let '(w, r) := f (s_w s) in (mkSt w (s_sk s) (s_rk s), r).
Definition lift {A} (r : res A) : M A := fun s => (s, r).
Definition require (b : bool) (e : exn) : M unit := if b then ret tt else fail e.
Definition absent_s (k : string) : M unit := sk <~ get s_sk; require (negb (dmem sk k)) ValueError.
Definition absent_r (k : string) : M unit := rk <~ get s_rk; require (negb (dmem rk k)) ValueError.
Definition set_s (k : string) (v : pyval) : M unit := fun s => (mkSt (s_w s) (dset (s_sk s) k v) (s_rk s), Ok tt).
Definition set_r (k : string) (v : pyval) : M unit := fun s => (mkSt (s_w s) (s_sk s) (dset (s_rk s) k v), Ok tt).
Definition when (b : bool) (m : M unit) : M unit := if b then m else ret tt.

(** _run_dynesty, lines 13-103; [names]: post.name_vary_params() *)
Definition run_dynesty (p : package) (names : res (list string)) (out : option string) (proceed : bool) : M nsres :=
  absent_r "resume" ;~
  set_r "resume" (PBool proceed) ;~
  absent_r "checkpoint_file" ;~
  match out with
  | None =>
      lift names ;~ sk <~ get s_sk; call (pk_new p sk) ;~
      rk <~ get s_rk; call (pk_run p rk)
  | Some d =>
      let c := join d "sampler.save" in
      set_r "checkpoint_file" (PStr c) ;~
      ex <~ get (fun s => exists_path (s_w s) c);
      (if proceed && ex then call (pk_restore p c)
       else lift names ;~ sk <~ get s_sk; call (pk_new p sk) ;~
            ex <~ get (fun s => exists_path (s_w s) c);
            when (proceed && negb ex) (set_r "resume" (PBool false))) ;~
      ex <~ get (fun s => exists_path (s_w s) c);
      when (negb ex) (call (makedirs false d)) ;~
      rk <~ get s_rk; r <~ call (pk_run p rk);
      call (pk_save p c) ;~ ret r
  end.

(** _run_ultranest, lines 106-175 *)
Definition run_ultranest (p : package) (names : res (list string)) (out : option string) (proceed : bool) : M nsres :=
  absent_s "log_dir" ;~ absent_s "resume" ;~
  set_s "resume" (if proceed then PBool true else PStr "overwrite") ;~
  set_s "log_dir" (match out with Some d => PStr d | None => PNone end) ;~
  lift names ;~
  sk <~ get s_sk; call (pk_new p sk) ;~
  rk <~ get s_rk; call (pk_run p rk).

(** _run_multinest, lines 178-265 *)
Definition run_multinest (p : package) (names : res (list string)) (out : option string) (overwrite proceed : bool) : M nsres :=
  let tmp := negb (is_some out) in
  let d := match out with Some d => d | None => "tmpdir" end in
  absent_r "outputfiles_basename" ;~
  set_r "outputfiles_basename" (PStr (join d "out")) ;~
  absent_r "resume" ;~
  set_r "resume" (PBool proceed) ;~
  call (makedirs (tmp || overwrite || proceed) d) ;~
  lift names ;~
  rk <~ get s_rk; r <~ call (pk_run p rk);
  when tmp (call (rmtree d)) ;~
  ret r.

(** _run_nautilus, lines 268-328 *)
Definition run_nautilus (p : package) (names : res (list string)) (out : option string) (proceed : bool) : M nsres :=
  rk <~ get s_rk;
  when (negb (dmem rk "verbose")) (set_r "verbose" (PBool true)) ;~
  absent_s "filepath" ;~
  match out with Some d => set_s "filepath" (PStr (join d "nautilus_output.hdf5")) | None => ret tt end ;~
  absent_s "resume" ;~
  set_s "resume" (PBool proceed) ;~
  lift names ;~
  sk <~ get s_sk; call (pk_new p sk) ;~
  rk <~ get s_rk; call (pk_run p rk).

(** The posterior as the driver uses it. *)
Record nspost := mkNsPost {
  np_check : res unit;                       (** check_proper_priors *)
  np_names : res (list string);              (** name_vary_params *)
  np_logprob : list R -> res ext }.          (** logprob_array *)

(** the results dictionary returned by run (without the sampler object) *)
Record results := mkRes { r_lnZ : R; r_lnZerr : R; r_samples : frame }.

(** DataFrame(samples, columns=names): one column per name *)
Definition to_frame (post : nspost) (ns : nsres) : res frame :=
  do names <- np_names post;
  if forallb (fun r => Nat.eqb (length r) (length names)) (ns_samples ns) then
    do rows <- map_res (fun r => do lp <- np_logprob post r; Ok (map Fin r ++ [lp])%list) (ns_samples ns);
    Ok (mkFrame (names ++ ["lnprobability"])%list rows)
  else Err ValueError.

(** nested_sampling.py:423-431: h5py "w", one dataset per result, then the frame in mode "a" *)
Definition write_results (p : string) (r : results) (w : world) : world :=
  let w := put_file w p (FH5 [] None) in
  let w := put_file w p (FH5 (dset [] "lnZ" (r_lnZ r)) None) in
  let w := put_file w p (FH5 (dset (dset [] "lnZ" (r_lnZ r)) "lnZerr" (r_lnZerr r)) None) in
  put_file w p (FH5 (dset (dset [] "lnZ" (r_lnZ r)) "lnZerr" (r_lnZerr r)) (Some (r_samples r))).

Definition results_path (d : string) : string := join d "results.hdf5".

Definition dispatch (ps : packages) (post : nspost) (sampler : string) (out : option string) (overwrite proceed : bool) (skcall : kwargs) : M nsres :=
  let sampler := lower sampler in
  let sampler := if String.eqb sampler "pymultinest" then "multinest" else sampler in
  if String.eqb sampler "ultranest" then run_ultranest (p_ultranest ps) (np_names post) out proceed
  else if String.eqb sampler "dynesty-static" then run_dynesty (p_static ps) (np_names post) out proceed
  else if String.eqb sampler "dynesty-dynamic" then run_dynesty (p_dynamic ps) (np_names post) out proceed
  else if String.eqb sampler "multinest" then
    match skcall with [] => run_multinest (p_multinest ps) (np_names post) out overwrite proceed | _ => fail TypeError end
  else if String.eqb sampler "nautilus" then run_nautilus (p_nautilus ps) (np_names post) out proceed
  else fail ValueError.

(** [x or {}]: a new dictionary for None and for an empty dictionary *)
Definition or_new (k : option kwargs) : kwargs := match k with Some d => d | None => [] end.
(** what the caller's dictionary is afterwards: the back end works on the caller's own
    dictionary unless that was None or empty *)
Definition caller (k : option kwargs) (d : kwargs) : option kwargs :=
  match k with Some (_ :: _) => Some d | _ => k end.

Record outcome := mkOut { o_w : world; o_sk : option kwargs; o_rk : option kwargs; o_res : res results }.

(** run, lines 340-433 *)
Definition run (ps : packages) (post : nspost) (out : option string) (overwrite proceed : bool) (sampler : string)
    (sk rk : option kwargs) (w : world) : outcome :=
  match np_check post with
  | Err e => mkOut w sk rk (Err e)
  | Ok _ =>
      let overwrite := overwrite || proceed in
      let stop := match out with Some d => exists_path w (results_path d) && negb overwrite | None => false end in
      if stop then mkOut w sk rk (Err FileExistsError)
      else
        let '(s, r) := dispatch ps post sampler out overwrite proceed (or_new sk) (mkSt w (or_new sk) (or_new rk)) in
        let fin w r := mkOut w (caller sk (s_sk s)) (caller rk (s_rk s)) r in
        match r with
        | Err e => fin (s_w s) (Err e)
        | Ok ns =>
            match to_frame post ns with
            | Err e => fin (s_w s) (Err e)
            | Ok f =>
                let r := mkRes (ns_lnZ ns) (ns_lnZerr ns) f in
                fin (match out with Some d => write_results (results_path d) r (s_w s) | None => s_w s end) (Ok r)
            end
        end
  end.

(** load_results, lines 436-450 *)
Definition load_results (w : world) (p : string) : res results :=
  match w_files w p with
  | None => Err FileNotFoundError
  | Some (FOther _) => Err PlainException
  | Some (FH5 ds fr) =>
      do z <- dget_res ds "lnZ";
      do ze <- dget_res ds "lnZerr";
      match fr with Some f => Ok (mkRes z ze f) | None => Err (KeyError "samples") end
  end.
