(** Model of initialize_posterior, radvel/utils.py:50-143, from the loaded setup
    module on.

    np.argsort of the times, used by CeleriteLikelihood, is an argument.  The
    kernel objects are built and checked but not kept: Gp.v has them.  The Parameters object is shared by all likelihoods, so it is one state. *)
From Coq Require Import Reals String Ascii Arith Bool List.
From Verif Require Import Py PyFloat Params Basis RVModel Likelihood Gp.
Import ListNotations.
Open Scope string_scope.

(** a row of P.data; columns other than time, mnvel, errvel, tel in [o_cols] *)
Record obs := mkObs { o_time : R; o_vel : R; o_err : R; o_tel : string; o_cols : dict R }.
(** the setup module; [None] is a missing attribute *)
Record setup := mkSetup {
  P_params : params; P_fitting_basis : string; P_decorr_vars : option (list string); P_time_base : R;
  P_instnames : list string; P_data : list obs;
  P_hnames : option (dict (list string)); P_kernel_name : option (dict string) }.

Inductive liketype := RVLike | GPLike (kernel : string) (hnames : list string) | CeleriteLike (hnames : list string).

(** key.replace('logjit', 'jit') *)
Fixpoint replace_logjit (s : string) : string :=
  match s with
  | "" => ""
  | String c r =>
      match s with
      | String "l" (String "o" (String "g" (String "j" (String "i" (String "t" t))))) => "jit" ++ replace_logjit t
      | _ => String c (replace_logjit r)
      end
  end.
(** utils.py:90-92 *)
Definition convert_logjit (h : heap) (d : dict nat) (k : string) : res (heap * dict nat) :=
  match get_param h d k with
  | None => Err (KeyError k)
  | Some p =>
      match p_value p with
      | None => Err TypeError
      | Some x =>
          let '(h1, d1) := set_new (h, d) (replace_logjit k) (mkParam (Some (exp x)) (p_vary p) None false) in
          Ok (h1, dremove d1 k)
      end
  end.
(** utils.py:82-92: after an item was deleted the next step of the iterator raises *)
Fixpoint logjit_loop (keys : list string) (mutated : bool) (h : heap) (d : dict nat) : res (heap * dict nat) :=
  match keys with
  | [] => Ok (h, d)
  | k :: r =>
      if mutated then Err RuntimeError
      else if startswith k "logjit" then do (h1, d1) <- convert_logjit h d k; logjit_loop r true h1 d1
      else logjit_loop r false h d
  end.

(** P.data.iloc[telgrps[inst]] *)
Definition rows_for (data : list obs) (inst : string) : list obs := filter (fun o => String.eqb (o_tel o) inst) data.
(** utils.py:110-113 *)
Definition decorr_vectors (rows : list obs) (vars : list string) : res (dict (list R)) :=
  for_each vars (fun acc v => do col <- map_res (fun o => dget_res (o_cols o) v) rows; Ok (dset acc v col)) [].
(** utils.py:115-128 *)
Definition choose_type (P : setup) (inst : string) : res liketype :=
  match P_hnames P with
  | None => Ok RVLike
  | Some hn =>
      do names <- dget_res hn inst;
      match P_kernel_name P with
      | None => Ok (GPLike "QuasiPer" names)
      | Some kn => do k <- dget_res kn inst; Ok (if String.eqb k "Celerite" then CeleriteLike names else GPLike k names)
      end
  end.

(** names in gp.KERNELS other than Celerite, gp.py:10-15, likelihood.py:440-442 *)
Definition kernel_of (name : string) : option kernel :=
  if String.eqb name "SqExp" then Some SqExp
  else if String.eqb name "Per" then Some Per
  else if String.eqb name "QuasiPer" then Some QuasiPer
  else None.
(** values of all parameters *)
Definition param_values (h : heap) (d : dict nat) : dict (option R) :=
  flat_map (fun kl => match nth_error h (snd kl) with Some p => [(fst kl, p_value p)] | None => [] end) d.
(** CeleriteKernel.__init__, gp.py:393-408; [hnames] are the names given *)
Definition celerite_slots (par : string) : list string :=
  filter (fun s => starts par s) ["gp_B"; "gp_C"; "gp_L"; "gp_Prot"].
Definition celerite_kernel_init (hnames : list string) : res unit :=
  let h := fold_left (fun h par => fold_left (fun h s => dset h s tt) (celerite_slots par) h) hnames [] in
  if Nat.eqb (length (dkeys h)) 4 then Ok tt else Err AssertionError.

Section Init.
  Variable argsort : list R -> list nat.

  (** what GPLikelihood.__init__ and CeleriteLikelihood.__init__ do after
      RVLikelihood.__init__, likelihood.py:440-454, 584-589 *)
  Definition gp_finish (ty : liketype) (h : heap) (ps : params) (l : rvlike) : res rvlike :=
    match ty with
    | RVLike => Ok l
    | GPLike name hnames =>
        match kernel_of name with
        | None => Err AssertionError
        | Some kind => do gk <- gp_init l hnames kind (param_values h (ps_items ps)); Ok (g_like (fst gk))
        end
    | CeleriteLike hnames =>
        do _ <- map_res (fun s => dget_res (param_values h (ps_items ps)) s) hnames;
        do _ <- celerite_kernel_init hnames;
        Ok (sorted_like l (argsort (l_x l)))
    end.

  (** the constructor call, utils.py:129-135: the GP classes drop the decorrelation *)
  Definition make_like (ty : liketype) (h : heap) (ps : params) (vec : vector) (rows : list obs) (inst : string)
      (vars : list string) (vecs : dict (list R)) : res (heap * params * vector * rvlike) :=
    let t := map o_time rows in let y := map o_vel rows in let e := map o_err rows in
    match ty with
    | RVLike => rvlike_init h ps vec t y e ("_" ++ inst) vars vecs
    | _ => do (h1, ps1, vec1, l) <- rvlike_init h ps vec t y e ("_" ++ inst) [] [];
           do l1 <- gp_finish ty h1 ps1 l; Ok (h1, ps1, vec1, l1)
    end.

  Definition with_items (ps : params) (d : dict nat) : params := mkParams d (ps_basis ps) (ps_num ps) (ps_pp ps) (ps_letters ps).
  (** likes[inst].params[k] = iparams[k] *)
  Definition set_item (ip : params) (ps : params) (k : string) : res params :=
    do l <- dget_res (ps_items ip) k; Ok (with_items ps (dset (ps_items ps) k l)).

  Record building := mkBuilding { bl_heap : heap; bl_params : params; bl_vector : vector; bl_likes : dict (liketype * rvlike) }.
  (** one instrument, utils.py:106-137 *)
  Definition add_inst (P : setup) (decorr : bool) (vars : list string) (ip : params) (b : building) (inst : string) : res building :=
    let rows := rows_for (P_data P) inst in
    match rows with
    | [] => Err AssertionError
    | _ =>
        do vecs <- (if decorr then decorr_vectors rows vars else Ok []);
        do ty <- choose_type P inst;
        do (h1, ps1, vec1, l) <- make_like ty (bl_heap b) (bl_params b) (bl_vector b) rows inst vars vecs;
        do ps2 <- set_item ip ps1 ("gamma_" ++ inst);
        do ps3 <- set_item ip ps2 ("jit_" ++ inst);
        Ok (mkBuilding h1 ps3 vec1 (dset (bl_likes b) inst (ty, l)))
    end.

  Record initialized := mkInit { i_heap : heap; i_params : params; i_vector : vector; i_likes : dict (liketype * rvlike); i_comp : composite }.
  Definition initialize_posterior (P : setup) (decorr : bool) (h : heap) : res initialized :=
    if negb (String.eqb (b_name (ps_basis (P_params P))) (P_fitting_basis P)) then Err AssertionError
    else
      do vars <- (if decorr then match P_decorr_vars P with Some l => Ok l | None => Err PlainException end else Ok []);
      do (h0, d) <- logjit_loop (dkeys (ps_items (P_params P))) false h (ps_items (P_params P));
      let ps := with_items (P_params P) d in
      let '(h1, ip) := copy_params h0 ps in
      do m <- rvmodel_init h1 ps (P_time_base P);
      do b <- for_each (P_instnames P) (add_inst P decorr vars ip) (mkBuilding h1 ps (m_vector m) []);
      do c <- composite_init (bl_heap b) (v_vector (bl_vector b))
                (map (fun x => mkCM (snd (snd x)) (ps_items (bl_params b)) 0) (bl_likes b));
      do v <- dict_to_vector (bl_heap b) (ps_items (bl_params b)) (v_indices (bl_vector b));
      Ok (mkInit (bl_heap b) (bl_params b) (mkVector (v_indices (bl_vector b)) v (v_names (bl_vector b))) (bl_likes b) c).
End Init.
