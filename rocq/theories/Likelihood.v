(** Model of radvel/likelihood.py: Likelihood, RVLikelihood,
    CompositeLikelihood.

    The state that calls can change is the [n x 4] array of the Vector object
    shared by the model and all likelihoods (a list of rows), the Parameter
    objects (heap) and the attribute [vary_params] of the likelihood on which
    set_vary_params is called.  A call returns the new state also when it
    raises.  The forward model is an argument [fwd]: rows -> times -> velocities;
    RVModel's is [rvmodel_call] (see [rv_forward]).
    Arrays that numpy combines elementwise must have the same length here
    (numpy also accepts length 1); a nan parameter value raises TypeError here
    where numpy would propagate it. *)
From Coq Require Import Reals String Ascii Arith Bool List.
From Verif Require Import Py PyFloat Params Kepler Basis RVModel.
Import ListNotations.
Open Scope R_scope.

(** ** Values and state *)

(** [vector[i][0] = x]; [None] is nan *)
Definition setval (v : list row) (i : nat) (x : option R) : list row :=
  match nth_error v i with
  | None => v
  | Some r => list_upd v i (mkRow x (r_vary r) (r_scale r) (r_lin r))
  end.

(** np.where(vector[:,1] == True)[0], likelihood.py:168 *)
Fixpoint where_vary (i : nat) (v : list row) : list nat :=
  match v with
  | [] => []
  | r :: s => if r_vary r then i :: where_vary (S i) s else where_vary (S i) s
  end.
Definition list_vary_params (v : list row) : list nat := where_vary 0 v.

(** ** set_vary_params / get_vary_params *)

(** the cached list after likelihood.py:146-150 *)
Definition refresh (cache : option (list nat)) (v : list row) (n : nat) : list nat :=
  match cache with
  | None => list_vary_params v
  | Some c => if Nat.eqb (length c) n then c else list_vary_params v
  end.

(** the loop of likelihood.py:151-153: IndexError when the values run out
    (what was assigned before stays), or when a row does not exist *)
Fixpoint assign_loop (v : list row) (is : list nat) (vals : list (option R)) : list row * res nat :=
  match is, vals with
  | [], _ => (v, Ok 0%nat)
  | _ :: _, [] => (v, Err IndexError)
  | i :: is', x :: vals' =>
      if Nat.ltb i (length v) then
        let '(v', r) := assign_loop (setval v i x) is' vals' in
        (v', do n <- r; Ok (S n))
      else (v, Err IndexError)
  end.

(** Likelihood.set_vary_params(vals, fast=True), likelihood.py:143-155:
    new rows, new cache, outcome *)
Definition set_vary_params (cache : option (list nat)) (v : list row) (vals : list (option R))
  : list row * option (list nat) * res unit :=
  let c := refresh cache v (length vals) in
  let '(v', r) := assign_loop v c vals in
  (v', Some c, do n <- r; if Nat.eqb n (length vals) then Ok tt else Err AssertionError).

(** ... with fast=False, likelihood.py:156-157 *)
Definition set_vary_params_slow (ps : params) (idx : dict nat) (h : heap) (cache : option (list nat))
    (v : list row) (vals : list (option R)) : list row * option (list nat) * res heap :=
  let '(v', c, r) := set_vary_params cache v vals in
  (v', c, do _ <- r; vector_to_dict (ps_items ps) idx v' h).

(** Likelihood.get_vary_params, likelihood.py:160-165: new cache, values *)
Definition get_vary_params (cache : option (list nat)) (v : list row)
  : option (list nat) * res (list (option R)) :=
  let c := match cache with Some c => c | None => list_vary_params v end in
  (Some c, map_res (fun i => match nth_error v i with
                             | Some r => Ok (r_val r) | None => Err IndexError end) c).

(** Likelihood.name_vary_params, likelihood.py:170-180 *)
Definition name_vary_params (cache : option (list nat)) (v : list row) (names : list string)
  : option (list nat) * res (list string) :=
  let c := match cache with Some c => c | None => list_vary_params v end in
  (Some c, map_res (fun i => match nth_error names i with
                             | Some s => Ok s | None => Err IndexError end) c).

(** ** loglike_jitter, likelihood.py:654-672 *)
Definition sig_quad (jit : R) (s : R) : R := s ^ 2 + jit ^ 2.

Definition loglike_jitter (residuals sigma : list R) (jit : R) : res ext :=
  if Nat.eqb (length residuals) (length sigma) then
    let penalty := ext_sum (map (fun s => ext_log (ext_sqrt (Fin (2 * PI * sig_quad jit s)))) sigma) in
    let chi2 := ext_sum (map2 (fun r s => ext_div (Fin (r ^ 2)) (Fin (sig_quad jit s))) residuals sigma) in
    Ok (ext_sub (ext_mul (Fin (- (1 / 2))) chi2) penalty)
  else Err ValueError.

(** ** RVLikelihood *)

(** Attributes of an RVLikelihood, likelihood.py:329-353. *)
Record rvlike := mkLike {
  l_x : list R; l_y : list R; l_yerr : list R;
  l_gamma : string; l_jit : string;        (* gamma_param, jit_param *)
  l_gidx : nat; l_jidx : nat;              (* gamma_index, jit_index *)
  l_suffix : string; l_telvec : list string;
  l_decorr : list string;                  (* decorr_params *)
  l_dvecs : dict (list R);                 (* decorr_vectors *)
  l_params : params; l_indices : dict nat }.

Definition forward := list row -> list R -> res (list R).

(** the test of likelihood.py:361 and 411-412 *)
Definition marginalised (g : row) : bool := r_lin g && negb (r_vary g).

(** ztil of likelihood.py:362-365; the sums are over arrays of equal length *)
Definition ztil_of (y mod_ yerr : list R) (jit : R) : ext :=
  ext_div
    (ext_sum (map2 (fun d s => ext_div (Fin d) (Fin (sig_quad jit s))) (map2 Rminus y mod_) yerr))
    (ext_sum (map (fun s => ext_div (Fin 1) (Fin (sig_quad jit s))) yerr)).
(** NaN becomes 0; an infinity is kept (stored here as nan; [ztil_finite] shows
    it does not occur) *)
Definition ztil_value (z : ext) : option R :=
  match z with NaN => Some 0 | Fin r => Some r | _ => None end.

(** [s.split('_')] *)
Fixpoint split_us (s cur : string) : list string :=
  match s with
  | EmptyString => [cur]
  | String c r => if Ascii.eqb c "_" then cur :: split_us r "" else split_us r (cur ++ String c "")
  end.
(** [a in b] for strings *)
Definition substr_in (a b : string) : bool :=
  match String.index 0 a b with Some _ => true | None => false end.
(** np.poly1d(pars)(x), highest degree first *)
Definition poly1d (pars : list R) (x : R) : R := fold_left (fun acc c => acc * x + c) pars 0.
(** np.mean; nan for no data, which no element then needs *)
Definition mean (l : list R) : R := rsum l / INR (length l).

(** body of the loop of likelihood.py:371-381.  Decorrelation vectors hold
    finite numbers only (so the isfinite test is true). *)
Definition decorr_step (l : rvlike) (v : list row) (res_ : list R) (parname : string) : res (list R) :=
  match nth_error (split_us parname "") 1 with
  | None => Err IndexError
  | Some var =>
      do pars <- map_res (fun par => do i <- dget_res (l_indices l) par; vget v i)
                         (filter (substr_in var) (l_decorr l));
      do vec <- dget_res (l_dvecs l) var;
      if Nat.eqb (length vec) (length res_) then
        Ok (map2 (fun r x => r - poly1d (pars ++ [0]) (x - mean vec)) res_ vec)
      else Err ValueError
  end.

(** RVLikelihood.residuals, likelihood.py:355-382. *)
Definition rv_residuals (fwd : forward) (l : rvlike) (v : list row) : list row * res (list R) :=
  match fwd v (l_x l) with
  | Err e => (v, Err e)
  | Ok mod_ =>
      match nth_error v (l_gidx l) with
      | None => (v, Err IndexError)
      | Some g =>
          if Nat.eqb (length mod_) (length (l_y l)) && Nat.eqb (length (l_yerr l)) (length (l_y l)) then
            let step1 :=
              if marginalised g then
                match vget v (l_jidx l) with
                | Err e => Err e
                | Ok jit => Ok (setval v (l_gidx l) (ztil_value (ztil_of (l_y l) mod_ (l_yerr l) jit)))
                end
              else Ok v in
            match step1 with
            | Err e => (v, Err e)
            | Ok v1 =>
                (v1, do gam <- vget v1 (l_gidx l);
                     for_each (l_decorr l) (fun r p => decorr_step l v1 r p)
                              (map2 Rminus (map (fun y => y - gam) (l_y l)) mod_))
            end
          else (v, Err ValueError)
      end
  end.

(** RVLikelihood.errorbars, likelihood.py:384-391. *)
Definition rv_errorbars (l : rvlike) (v : list row) : res (list R) :=
  do jit <- vget v (l_jidx l); Ok (map (fun s => sqrt (sig_quad jit s)) (l_yerr l)).

(** RVLikelihood.logprob, likelihood.py:393-415. *)
Definition rv_logprob (fwd : forward) (l : rvlike) (v : list row) : list row * res ext :=
  match vget v (l_jidx l) with
  | Err e => (v, Err e)
  | Ok jit =>
      let '(v1, r) := rv_residuals fwd l v in
      (v1,
       do residuals <- r;
       do ll <- loglike_jitter residuals (l_yerr l) jit;
       match nth_error v1 (l_gidx l) with
       | None => Err IndexError
       | Some g =>
           if marginalised g then
             let sigz := ext_div (Fin 1) (ext_sum (map (fun s => ext_div (Fin 1) (Fin (sig_quad jit s))) (l_yerr l))) in
             Ok (ext_add ll (ext_log (ext_sqrt (ext_mul (Fin (2 * PI)) sigz))))
           else Ok ll
       end)
  end.

(** Likelihood.__init__ (likelihood.py:25-50) on the shared objects: missing
    parameters are created with value 0.0 and get the next row after the
    present end of the array; then the array and the names are rebuilt.
    [n] is the local counter. *)
Definition add_extra (st : heap * dict nat * dict nat * nat) (k : string) : heap * dict nat * dict nat * nat :=
  let '(h, d, idx, n) := st in
  let '(h', d') := if dmem d k then (h, d) else set_new (h, d) k (mkParam (Some 0) (VBool true) None false) in
  if dmem idx k then (h', d', idx, n) else (h', d', dset idx k n, S n).

Definition likelihood_init (h : heap) (d : dict nat) (vec : vector) (extra decorr : list string)
  : res (heap * dict nat * vector) :=
  let '(h1, d1, idx1, n1) := fold_left add_extra (extra ++ decorr) (h, d, v_indices vec, length (v_vector vec)) in
  do v <- dict_to_vector h1 d1 idx1;
  do nm <- vector_names d1 idx1;
  Ok (h1, d1, mkVector idx1 v nm).

(** [suffix[1:] if suffix.startswith('_') else suffix], likelihood.py:335-338 *)
Definition strip_us (s : string) : string :=
  match s with String "_" r => r | _ => s end.

(** RVLikelihood.__init__, likelihood.py:329-353. *)
Definition rvlike_init (h : heap) (ps : params) (vec : vector) (t y yerr : list R) (suffix : string)
    (decorr_vars : list string) (dvecs : dict (list R)) : res (heap * params * vector * rvlike) :=
  let gamma := ("gamma" ++ suffix)%string in
  let jit := ("jit" ++ suffix)%string in
  let decorr := map (fun d => ("c1_" ++ d ++ suffix)%string) decorr_vars in
  do (h1, d1, vec1) <- likelihood_init h (ps_items ps) vec [gamma; jit] decorr;
  let ps1 := mkParams d1 (ps_basis ps) (ps_num ps) (ps_pp ps) (ps_letters ps) in
  do gi <- dget_res (v_indices vec1) gamma;
  do ji <- dget_res (v_indices vec1) jit;
  Ok (h1, ps1, vec1,
      mkLike t y yerr gamma jit gi ji (strip_us suffix) (map (fun _ => strip_us suffix) t) decorr dvecs
             ps1 (v_indices vec1)).

(** the forward model of an RVModel on the shared array *)
Definition rv_forward (use_c : bool) (fuel : nat) (ps : params) (idx : dict nat) (names : list string)
    (time_base : R) : forward :=
  fun v t => rvmodel_call use_c fuel (mkRVModel ps (mkVector idx v names) time_base) t None.

(** ** CompositeLikelihood *)

(** Members are anything with the three methods on a shared state [S]. *)
Record member (S : Type) := mkMember {
  mb_logprob : S -> S * res ext;
  mb_residuals : S -> S * res (list R);
  mb_errorbars : S -> res (list R) }.
Arguments mkMember {S}. Arguments mb_logprob {S}. Arguments mb_residuals {S}. Arguments mb_errorbars {S}.

Definition rv_member (fwd : forward) (l : rvlike) : member (list row) :=
  mkMember (rv_logprob fwd l) (rv_residuals fwd l) (rv_errorbars l).

(** CompositeLikelihood.logprob, likelihood.py:284-291: accumulate from 0 *)
Fixpoint comp_logprob_from {S} (acc : ext) (ms : list (member S)) (s : S) : S * res ext :=
  match ms with
  | [] => (s, Ok acc)
  | m :: r => match mb_logprob m s with
              | (s', Ok x) => comp_logprob_from (ext_add acc x) r s'
              | (s', Err e) => (s', Err e)
              end
  end.
Definition comp_logprob {S} (ms : list (member S)) (s : S) : S * res ext := comp_logprob_from (Fin 0) ms s.

(** CompositeLikelihood.residuals, likelihood.py:293-302 *)
Fixpoint comp_residuals_from {S} (acc : list R) (ms : list (member S)) (s : S) : S * res (list R) :=
  match ms with
  | [] => (s, Ok acc)
  | m :: r => match mb_residuals m s with
              | (s', Ok x) => comp_residuals_from (acc ++ x) r s'
              | (s', Err e) => (s', Err e)
              end
  end.
Definition comp_residuals {S} (ms : list (member S)) (s : S) : S * res (list R) :=
  match ms with
  | [] => (s, Err IndexError)
  | m :: r => match mb_residuals m s with
              | (s', Ok x) => comp_residuals_from x r s'
              | (s', Err e) => (s', Err e)
              end
  end.

(** CompositeLikelihood.errorbars, likelihood.py:304-315 *)
Definition comp_errorbars {S} (ms : list (member S)) (s : S) : res (list R) :=
  match ms with
  | [] => Err IndexError
  | m :: r => do e0 <- mb_errorbars m s;
              for_each r (fun acc m' => do e <- mb_errorbars m' s; Ok (acc ++ e)%list) e0
  end.

(** Parameter._equals, model.py:55-60 (value, vary, mcmcscale; not linear) *)
Definition option_reqb (a b : option R) : bool :=
  match a, b with Some x, Some y => reqb x y | None, None => true | _, _ => false end.
Definition vary_eqb (a b : varyv) : bool :=
  match a, b with VBool x, VBool y => Bool.eqb x y | VEmpty, VEmpty => true | _, _ => false end.
Definition param_equals (p q : param) : bool :=
  option_reqb (p_value p) (p_value q) && vary_eqb (p_vary p) (p_vary q) && option_reqb (p_scale p) (p_scale q).

(** What the constructor looks at in a member (likelihood.py:241-281): data,
    labels, parameter dictionary and the identity of its Vector object.
    hnames, extra_params and uparams are left out. *)
Record cmember := mkCM {
  c_like : rvlike; c_items : dict nat; c_vector_id : nat }.

Record composite := mkComp {
  cp_x : list R; cp_y : list R; cp_yerr : list R; cp_telvec : list string; cp_suffixes : list string;
  cp_items : dict nat; cp_likes : list cmember }.

(** likelihood.py:270-275: shared keys must hold equal parameters, others are added *)
Definition merge_params (h : heap) (d2 : dict nat) (d : dict nat) : res (dict nat) :=
  for_each (dkeys d2)
    (fun d k => if dmem d k
                then match get_param h d2 k, get_param h d k with
                     | Some p, Some q => if param_equals p q then Ok d else Err AssertionError
                     | _, _ => Err (KeyError k)
                     end
                else do l <- dget_res d2 k; Ok (dset d k l)) d.

(** loop body, likelihood.py:257-279 *)
Definition comp_step (h : heap) (v : list row) (vid : nat) (acc : composite) (m : cmember) : res composite :=
  let l := c_like m in
  do gi <- dget_res (l_indices l) (l_gamma l);
  do g <- vget v gi;
  do d <- merge_params h (c_items m) (cp_items acc);
  if Nat.eqb (c_vector_id m) vid then
    Ok (mkComp (cp_x acc ++ l_x l) (cp_y acc ++ map (fun y => y - g) (l_y l)) (cp_yerr acc ++ l_yerr l)
               (cp_telvec acc ++ l_telvec l) (cp_suffixes acc ++ [l_suffix l]) d (cp_likes acc ++ [m]))
  else Err AssertionError.

(** CompositeLikelihood.__init__, likelihood.py:241-282. *)
Definition composite_init (h : heap) (v : list row) (likes : list cmember) : res composite :=
  match likes with
  | [] => Err IndexError
  | m0 :: r =>
      let l := c_like m0 in
      for_each r (comp_step h v (c_vector_id m0))
        (mkComp (l_x l) (l_y l) (l_yerr l) (l_telvec l) [l_suffix l] (c_items m0) [m0])
  end.

(** ** logprob_array, bic, aic on a likelihood with state (rows, cache) *)

(** Likelihood.logprob_array, likelihood.py:191-194 *)
Definition logprob_array (lp : list row -> list row * res ext) (st : list row * option (list nat))
    (vals : list (option R)) : (list row * option (list nat)) * res ext :=
  let '(v1, c, r) := set_vary_params (snd st) (fst st) vals in
  match r with
  | Err e => ((v1, c), Err e)
  | Ok _ => let '(v2, x) := lp v1 in ((v2, c), x)
  end.

(** Likelihood.bic, likelihood.py:196-206; [n] is len(self.y) *)
Definition bic (lp : list row -> list row * res ext) (n : nat) (st : list row * option (list nat))
  : (list row * option (list nat)) * res ext :=
  let '(c, k) := get_vary_params (snd st) (fst st) in
  match k with
  | Err e => ((fst st, c), Err e)
  | Ok vals =>
      let '(v2, x) := lp (fst st) in
      ((v2, c), do l <- x; Ok (ext_sub (ext_mul (ext_log (Fin (INR n))) (Fin (INR (length vals))))
                                       (ext_mul (Fin 2) l)))
  end.

(** Likelihood.aic, likelihood.py:208-230 *)
Definition aic (lp : list row -> list row * res ext) (n : nat) (st : list row * option (list nat))
  : (list row * option (list nat)) * res ext :=
  let '(c, kk) := get_vary_params (snd st) (fst st) in
  match kk with
  | Err e => ((fst st, c), Err e)
  | Ok vals =>
      let k := INR (length vals) in
      let '(v2, x) := lp (fst st) in
      ((v2, c),
       do l <- x;
       let a := ext_add (ext_mul (Fin (-2)) l) (Fin (2 * k)) in
       let denom := INR n - k - 1 in
       Ok (if rltb 0 denom then ext_add a (Fin (2 * k * (k + 1) / denom)) else PInf))
  end.
