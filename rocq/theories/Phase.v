(** Orbital phases and draws from a chain: radvel/utils.py:345-383, 643-668 and
    radvel/model.py:297-319 (array_to_params, list_vary_params, list_params). *)
From Coq Require Import Reals String ZArith Bool List.
From Verif Require Import Py PyFloat Params Kepler Basis RVModel.
Import ListNotations.
Open Scope R_scope.

(** np.mod on floats followed by [phase /= P], utils.py:367-368; x mod 0 is nan *)
Definition np_mod (x p : R) : ext := if reqb p 0 then NaN else Fin (x - p * np_floor (x / p)).
Definition fold_phase (P tc t : R) : ext := ext_div (np_mod (t - tc) P) (Fin P).
Definition phases (P tc : R) (t : list R) (cat : bool) : list ext :=
  let ph := map (fold_phase P tc) t in
  if cat then (ph ++ map (fun x => ext_add x (Fin 1)) ph)%list else ph.

(** t_to_phase, utils.py:345-371 *)
Definition t_to_phase (h : heap) (d : dict nat) (t : list R) (n : nat) (cat : bool) : res (list ext) :=
  let timeparam := if dmem d (key "tc" n) then Some "tc"%string
                   else if dmem d (key "tp" n) then Some "tp"%string else None in
  do P <- getpar h d n "per";
  do tc <- match timeparam with Some p => getpar h d n p | None => Err UnboundLocalError end;
  Ok (phases P tc t cat).

(** t_to_phase_vector, utils.py:373-383 *)
Definition t_to_phase_vector (ps : params) (v : list row) (t : list R) (n : Z) (cat : bool) : res (list ext) :=
  do w <- v_to_synth (ps_basis ps) v false None;
  do P <- vgetz w (-5 + 5 * n)%Z;
  do tc <- vgetz w (-4 + 5 * n)%Z;
  Ok (phases P tc t cat).

(** ** draw_models_from_chain *)

(** list_vary_params, model.py:308-319; [order] is the cached attribute params_order.
    A vary flag that is the empty string counts as False. *)
Definition truthy (v : varyv) : bool := match v with VBool b => b | VEmpty => false end.
Definition list_params (d : dict nat) (order : option (list string)) : list string :=
  match order with Some l => l | None => dkeys d end.
Definition vary_names (h : heap) (d : dict nat) (keys : list string) : res (list string) :=
  for_each keys (fun acc k => match get_param h d k with
                              | None => Err (KeyError k)
                              | Some q => Ok (if truthy (p_vary q) then (acc ++ [k])%list else acc)
                              end) [].

(** array_to_params, model.py:297-306: assigns new Parameter objects (vary=True) in the
    model's own dictionary; the model's Vector is not touched *)
Definition assign_params (hd : heap * dict nat) (names : list string) (vals : list R) : heap * dict nat :=
  fold_left (fun hd kx => set_new hd (fst kx) (mkParam (Some (snd kx)) (VBool true) None false)) (combine names vals) hd.
Definition with_items (m : rvmodel) (d : dict nat) : rvmodel :=
  let ps := m_params m in
  mkRVModel (mkParams d (ps_basis ps) (ps_num ps) (ps_pp ps) (ps_letters ps)) (m_vector m) (m_time_base m).
Definition array_to_params (h : heap) (m : rvmodel) (keys : list string) (vals : list R) : res (heap * rvmodel) :=
  do names <- vary_names h (ps_items (m_params m)) keys;
  if Nat.ltb (length vals) (length names) then Err IndexError
  else let '(h', d) := assign_params (h, ps_items (m_params m)) names vals in Ok (h', with_items m d).

(** A chain: rows with labels; the labels (index) are assumed distinct. *)
Definition chain := list (nat * dict R).
Definition chain_loc (c : chain) (i : nat) : res (dict R) :=
  match find (fun ir => Nat.eqb (fst ir) i) c with Some ir => Ok (snd ir) | None => Err (KeyError "row"%string) end.

(** one drawn row, utils.py:663-666 *)
Definition draw_step (use_c : bool) (fuel : nat) (c : chain) (t : list R) (keys : list string)
    (s : heap * rvmodel * list (list R)) (i : nat) : res (heap * rvmodel * list (list R)) :=
  let '(h, m, out) := s in
  do names <- vary_names h (ps_items (m_params m)) keys;
  do row <- chain_loc c i;
  do vals <- map_res (fun k => dget_res row k) names;
  do (h1, m1) <- array_to_params h m keys vals;
  do vel <- rvmodel_call use_c fuel m1 t None;
  Ok (h1, m1, (out ++ [vel])%list).

(** utils.py:643-668.  [draws]: the labels chosen by np.random.choice(chain.index, nsamples),
    used as positions by iloc (utils.py:660-661).  np.vstack refuses an empty list. *)
Definition draw_models (use_c : bool) (fuel : nat) (h : heap) (m : rvmodel) (order : option (list string))
    (c : chain) (t : list R) (draws : list nat) : res (list (list R)) :=
  do rows <- map_res (fun p => match nth_error c p with Some ir => Ok (fst ir) | None => Err IndexError end) draws;
  let keys := list_params (ps_items (m_params m)) order in
  do (_, _, out) <- for_each rows (draw_step use_c fuel c t keys) (h, m, []);
  match out with [] => Err ValueError | _ => Ok out end.
