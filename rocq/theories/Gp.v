(** Model of radvel/gp.py and of GPLikelihood / CeleriteLikelihood
    (likelihood.py:418-651).

    Linear algebra (cho_factor, cho_solve, slogdet, celerite's CholeskySolver) is
    an argument.  Hyper-parameter values come from the rows of the Vector; nan is
    [None] there.  A matrix is a list of rows of [ext]. *)
From Coq Require Import Reals String Ascii Arith Bool List.
From Verif Require Import Py PyFloat Params Kepler Basis Likelihood.
Import ListNotations.
Open Scope R_scope.

Definition matrix := list (list ext).

(** np.exp, np.sin on floats *)
Definition ext_exp (a : ext) : ext :=
  match a with Fin x => Fin (exp x) | NInf => Fin 0 | PInf => PInf | NaN => NaN end.
Definition ext_sin (a : ext) : ext := match a with Fin x => Fin (sin x) | _ => NaN end.

(** a hyper-parameter as a float *)
Definition fl (o : option R) : ext := match o with Some x => Fin x | None => NaN end.

(** ** Kernels *)

Inductive kernel := SqExp | Per | QuasiPer.

(** attributes: hparams (values), covmatrix, and the distances |a - b| of the last
    compute_distances (the squared distances are their squares) *)
Record kstate := mkK { k_h : dict (option R); k_cov : option matrix; k_dist : list (list R) }.

(** compute_distances, gp.py:116-119, 199-202, 294-298 *)
Definition cdist (x1 x2 : list R) : list (list R) := map (fun a => map (fun b => Rabs (a - b)) x2) x1.
Definition set_dist (k : kstate) (x1 x2 : list R) : kstate := mkK (k_h k) (k_cov k) (cdist x1 x2).

(** the [errors] argument: a float or an array *)
Definition errs := (R + list R)%type.

(** [self.covmatrix += (errors**2) * np.identity(K.shape[0])] inside try/except
    ValueError, gp.py:138-141.  A matrix of one row is broadcast; an array of
    errors must have the length of the square matrix (numpy also accepts
    length 1). *)
Definition add_at (i : nat) (e : R) (row : list ext) : list ext :=
  match nth_error row i with Some x => list_upd row i (ext_add x (Fin (e ^ 2))) | None => row end.
Fixpoint add_diag_from (i : nat) (es : list R) (m : matrix) : matrix :=
  match es, m with
  | e :: es', r :: m' => add_at i e r :: add_diag_from (S i) es' m'
  | _, _ => m
  end.
Definition square (m : matrix) : bool := forallb (fun r => Nat.eqb (length r) (length m)) m.
Definition add_errors (e : errs) (m : matrix) : matrix :=
  match e with
  | inl c => if square m then add_diag_from 0 (repeat c (length m)) m
             else match m with [r] => [map (fun x => ext_add x (Fin (c ^ 2))) r] | _ => m end
  | inr es => if square m && Nat.eqb (length es) (length m) then add_diag_from 0 es m else m
  end.

(** entries: gp.py:134, 214 *)
Definition sqexp_entry (len amp : option R) (d : R) : ext :=
  ext_mul (ext_mul (fl amp) (fl amp))
          (ext_exp (ext_div (Fin (- d ^ 2)) (ext_mul (fl len) (fl len)))).
Definition per_entry (len amp per : option R) (d : R) : ext :=
  let s := ext_sin (ext_div (Fin (PI * d)) (fl per)) in
  ext_mul (ext_mul (fl amp) (fl amp))
          (ext_exp (ext_div (ext_opp (ext_mul s s)) (ext_mul (Fin 2) (ext_mul (fl len) (fl len))))).
(** gp.py:339-351; all four values are positive here *)
Definition clip (x : R) : R := Rmin (Rmax x (-100)) 100.
Definition quasi_entry (perlen amp per explen : R) (d : R) : R :=
  amp ^ 2 * exp (clip (- d ^ 2 / explen ^ 2)) * exp (clip (- sin (PI * d / per) ^ 2 / (2 * perlen ^ 2))).

Definition hval (k : kstate) (s : string) : res (option R) := dget_res (k_h k) s.

(** store and return *)
Definition with_cov (k : kstate) (m : matrix) : kstate * res matrix := (mkK (k_h k) (Some m) (k_dist k), Ok m).

(** the check of gp.py:318-325 *)
Definition bad_hyper (o : option R) : bool := match o with None => true | Some x => rltb x 0 end.

(** compute_covmatrix: new kernel state and returned matrix *)
Definition compute_covmatrix (kind : kernel) (k : kstate) (e : errs) : kstate * res matrix :=
  match kind with
  | SqExp =>
      match hval k "gp_length", hval k "gp_amp" with
      | Ok len, Ok amp => with_cov k (add_errors e (map (map (sqexp_entry len amp)) (k_dist k)))
      | Err x, _ | _, Err x => (k, Err x)
      end
  | Per =>
      match hval k "gp_length", hval k "gp_amp", hval k "gp_per" with
      | Ok len, Ok amp, Ok per => with_cov k (add_errors e (map (map (per_entry len amp per)) (k_dist k)))
      | Err x, _, _ | _, Err x, _ | _, _, Err x => (k, Err x)
      end
  | QuasiPer =>
      match hval k "gp_perlength", hval k "gp_amp", hval k "gp_per", hval k "gp_explength" with
      | Ok pl, Ok amp, Ok per, Ok el =>
          if bad_hyper amp || bad_hyper per || bad_hyper el || bad_hyper pl then (k, Err ValueError)
          else
            match pl, amp, per, el with
            | Some pl, Some amp, Some per, Some el =>
                if reqb amp 0 || reqb per 0 || reqb el 0 || reqb pl 0 then
                  (* gp.py:329-336: kernel.covmatrix is not assigned *)
                  let n := length (k_dist k) in
                  let z := repeat (repeat (Fin 0) n) n in
                  match e with
                  | inl c => (k, Ok (if reqb c 0 then z else add_diag_from 0 (repeat c n) z))
                  | inr es => if Nat.eqb (length es) n then (k, Ok (add_diag_from 0 es z)) else (k, Err ValueError)
                  end
                else with_cov k (add_errors e (map (map (fun d => Fin (quasi_entry pl amp per el d))) (k_dist k)))
            | _, _, _, _ => (k, Err ValueError)
            end
      | Err x, _, _, _ | _, Err x, _, _ | _, _, Err x, _ | _, _, _, Err x => (k, Err x)
      end
  end.

(** ** Construction, gp.py:87-109, 166-191, 253-284 *)

(** ['length' in par] *)
Fixpoint has_sub (w s : string) : bool :=
  String.prefix w s || match s with EmptyString => false | String _ s' => has_sub w s' end.
Definition starts (s pre : string) : bool := String.prefix pre s.
(** which entries of kernel.hparams a name sets, in the order of the ifs *)
Definition slots (kind : kernel) (par : string) : list string :=
  let sw pre := if starts par pre then [pre] else [] in
  match kind with
  | SqExp => concat [sw "gp_length"; sw "gp_amp"]
  | Per => concat [sw "gp_length"; sw "gp_amp"; sw "gp_per"]
  | QuasiPer => concat [sw "gp_perlength"; sw "gp_amp"; if has_sub "length" par then [] else sw "gp_per"; sw "gp_explength"]
  end%string.
Definition needed (kind : kernel) : list string :=
  match kind with
  | SqExp => ["gp_length"; "gp_amp"]
  | Per => ["gp_length"; "gp_amp"; "gp_per"]
  | QuasiPer => ["gp_perlength"; "gp_amp"; "gp_per"; "gp_explength"]
  end%string.

Definition kernel_init (kind : kernel) (hparams : dict (option R)) : res kstate :=
  let h := fold_left (fun h par => match dget hparams par with
                                   | Some x => fold_left (fun h s => dset h s x) (slots kind par) h
                                   | None => h end) (dkeys hparams) [] in
  if Nat.eqb (length (dkeys hparams)) (length (needed kind)) then
    do _ <- for_each (needed kind) (fun _ s => do _ <- dget_res h s; Ok tt) tt;
    Ok (mkK h None [])
  else Err AssertionError.

(** ** GPLikelihood *)

Record gplike := mkGP { g_like : rvlike; g_hnames : list string; g_kind : kernel }.

(** [key.split('_')] *)
Fixpoint split_us (s : string) : list string :=
  match s with
  | EmptyString => [EmptyString]
  | String c s' =>
      if Ascii.eqb c "_" then EmptyString :: split_us s'
      else match split_us s' with w :: r => String c w :: r | [] => [String c EmptyString] end
  end.
(** [key.split('_')]: first two parts joined, likelihood.py:461-462 *)
Definition hkey (name : string) : res string :=
  match split_us name with a :: b :: _ => Ok (a ++ "_" ++ b)%string | _ => Err IndexError end.

(** update_kernel_params, likelihood.py:456-464.  (The Parameter objects of
    params are the same objects; that side effect is not recorded.) *)
Definition update_step (hnames : list string) (idx : dict nat) (v : list row) (h : dict (option R)) (name : string)
  : res (dict (option R)) :=
  if existsb (String.eqb name) hnames then
    do hk <- hkey name;
    match dget h hk with
    | None => Err (KeyError hk)
    | Some _ =>
        do i <- dget_res idx name;
        match nth_error v i with Some r => Ok (dset h hk (r_val r)) | None => Err IndexError end
    end
  else Ok h.
Definition update_kernel_params (g : gplike) (v : list row) (k : kstate) : res kstate :=
  do h <- for_each (dkeys (l_indices (g_like g))) (update_step (g_hnames g) (l_indices (g_like g)) v) (k_h k);
  Ok (mkK h (k_cov k) (k_dist k)).

(** _resids, likelihood.py:466-471 *)
Definition gp_resids (fwd : forward) (l : rvlike) (v : list row) : res (list R) :=
  do gam <- vget v (l_gidx l);
  do m <- fwd v (l_x l);
  if Nat.eqb (length m) (length (l_y l)) then Ok (map2 Rminus (map (fun y => y - gam) (l_y l)) m) else Err ValueError.

Record linalg := mkLA {
  la_quad : matrix -> list R -> res R;                 (* r . K^-1 r, raising like cho_factor / cho_solve *)
  la_logdet : matrix -> ext;                           (* slogdet *)
  la_chol : matrix -> res unit;                        (* cho_factor *)
  la_mean : matrix -> matrix -> list R -> list ext;    (* Ks K^-1 r *)
  la_std : matrix -> matrix -> matrix -> list ext }.   (* sqrt diag (Kss - Ks K^-1 Ks^T) *)

(** the try block of likelihood.py:498-516; a covmatrix of None is refused by
    cho_factor with ValueError *)
Definition gp_try (la : linalg) (cov : option matrix) (r : list R) (n : nat) : res ext :=
  match (match cov with None => Err ValueError | Some K => do q <- la_quad la K r; Ok (q, la_logdet la K) end) with
  | Ok (q, d) => Ok (ext_mul (Fin (- (1 / 2))) (ext_add (ext_add (Fin q) d) (Fin (INR n * ln (2 * PI)))))
  | Err LinAlgError | Err ValueError => Ok NInf
  | Err e => Err e
  end.

(** GPLikelihood.logprob, likelihood.py:481-516 *)
Definition gp_logprob (fwd : forward) (la : linalg) (g : gplike) (v : list row) (k : kstate) : kstate * res ext :=
  match update_kernel_params g v k with
  | Err e => (k, Err e)
  | Ok k1 =>
      match gp_resids fwd (g_like g) v, rv_errorbars (g_like g) v with
      | Err e, _ | Ok _, Err e => (k1, Err e)
      | Ok r, Ok eb =>
          let '(k2, m) := compute_covmatrix (g_kind g) k1 (inr eb) in
          match m with
          | Err e => (k2, Err e)
          | Ok _ => (k2, gp_try la (k_cov k2) r (length (l_x (g_like g))))
          end
      end
  end.

Definition has_nan_or_inf (m : matrix) : bool := existsb (existsb (fun x => negb (isfinite x))) m.
(** shapes match in np.dot(Ks, alpha); an empty xpred is not modelled further *)
Definition n_cols_ok (m : matrix) (n : nat) : bool := match m with [] => true | r :: _ => Nat.eqb (length r) n end.

(** GPLikelihood.predict, likelihood.py:518-556 *)
Definition gp_predict (fwd : forward) (la : linalg) (g : gplike) (v : list row) (k : kstate) (xpred : list R)
  : kstate * res (list ext * list ext) :=
  let l := g_like g in
  match update_kernel_params g v k with
  | Err e => (k, Err e)
  | Ok k1 =>
      match gp_resids fwd l v with
      | Err e => (k1, Err e)
      | Ok r =>
          let k2 := set_dist k1 (l_x l) (l_x l) in
          match rv_errorbars l v with
          | Err e => (k2, Err e)
          | Ok eb =>
              let '(k3, mK) := compute_covmatrix (g_kind g) k2 (inr eb) in
              match mK with
              | Err e => (k3, Err e)
              | Ok K =>
                  if has_nan_or_inf K then (k3, Err ValueError)
                  else
                    let '(k4, mKs) := compute_covmatrix (g_kind g) (set_dist k3 xpred (l_x l)) (inl 0) in
                    match mKs with
                    | Err e => (k4, Err e)
                    | Ok Ks =>
                        match la_chol la K with
                        | Err e => (k4, Err e)
                        | Ok _ =>
                            if n_cols_ok Ks (length (l_x l)) then
                              let '(k5, mKss) := compute_covmatrix (g_kind g) (set_dist k4 xpred xpred) (inl 0) in
                              match mKss with
                              | Err e => (k5, Err e)
                              | Ok Kss => (set_dist k5 (l_x l) (l_x l), Ok (la_mean la K Ks r, la_std la K Ks Kss))
                              end
                            else (k4, Err ValueError)
                        end
                    end
              end
          end
      end
  end.

(** GPLikelihood.__init__ after RVLikelihood's, likelihood.py:431-454 *)
Definition gp_init (l : rvlike) (hnames : list string) (kind : kernel) (values : dict (option R)) : res (gplike * kstate) :=
  do hp <- map_res (fun s => do x <- dget_res values s; Ok (s, x)) hnames;
  do k <- kernel_init kind (dupdate [] hp);
  Ok (mkGP l hnames kind, set_dist k (l_x l) (l_x l)).

(** ** CeleriteLikelihood *)

(** likelihood.py:575-590: GPLikelihood.__init__ has called compute_distances, which
    stores the times as given ([c_kx], gp.py:453-465); x, y, yerr are then replaced
    by sorted copies.  [order] is np.argsort(x). *)
Record celike := mkCel { c_gp : gplike; c_kx : list R }.
Definition pick {A} (l : list A) (order : list nat) : list A :=
  flat_map (fun i => match nth_error l i with Some x => [x] | None => [] end) order.
Definition sorted_like (l : rvlike) (order : list nat) : rvlike :=
  mkLike (pick (l_x l) order) (pick (l_y l) order) (pick (l_yerr l) order) (l_gamma l) (l_jit l) (l_gidx l) (l_jidx l)
         (l_suffix l) (l_telvec l) (l_decorr l) (l_dvecs l) (l_params l) (l_indices l).
Definition cel_init (l : rvlike) (hnames : list string) (order : list nat) : celike :=
  mkCel (mkGP (sorted_like l order) hnames QuasiPer) (l_x l).

(** What the celerite solver is given in logprob: hyper-parameters, time stamps,
    diagonal, right-hand side.  likelihood.py:592-600, gp.py:468-491.
    (The kernel kind in [c_gp] is not used by update_kernel_params.) *)
Record solver_call := mkCall { s_h : dict (option R); s_t : list R; s_diag : list R; s_rhs : list R }.
Definition cel_call (fwd : forward) (c : celike) (v : list row) (h : dict (option R)) : res solver_call :=
  do k <- update_kernel_params (c_gp c) v (mkK h None []);
  do eb <- rv_errorbars (g_like (c_gp c)) v;
  do r <- gp_resids fwd (g_like (c_gp c)) v;
  Ok (mkCall (k_h k) (c_kx c) (map (fun e => e ^ 2) eb) r).

(** CeleriteLikelihood.logprob: [solve] is dot_solve + log_determinant.
    update_kernel_params is outside the try block; the rest is inside it but only
    celerite's LinAlgError is caught. *)
Definition cel_logprob (fwd : forward) (solve : solver_call -> res R) (c : celike) (v : list row) (h : dict (option R))
  : res ext :=
  do call <- cel_call fwd c v h;
  match solve call with
  | Ok q => Ok (Fin (- (1 / 2) * (q + INR (length (l_x (g_like (c_gp c)))) * ln (2 * PI))))
  | Err LinAlgError => Ok NInf
  | Err e => Err e
  end.

(** CeleriteLikelihood.predict, likelihood.py:606-651: gp.compute(self.x, self.yerr)
    then gp.predict(self._resids()); the jitter enters through the kernel. *)
Definition cel_predict_call (fwd : forward) (c : celike) (v : list row) (h : dict (option R)) : res solver_call :=
  do k <- update_kernel_params (c_gp c) v (mkK h None []);
  do jit <- vget v (l_jidx (g_like (c_gp c)));
  do r <- gp_resids fwd (g_like (c_gp c)) v;
  Ok (mkCall (k_h k) (l_x (g_like (c_gp c))) (map (fun s => s ^ 2 + jit ^ 2) (l_yerr (g_like (c_gp c)))) r).
