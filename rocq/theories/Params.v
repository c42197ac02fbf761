(** Model of radvel/model.py: Parameter, Parameters and Vector.
    Parameter objects are mutable and shared between dictionaries, so they live
    in a heap and a dictionary maps keys to heap locations. *)
From Coq Require Import Decimal DecimalString.
From Coq Require Import Reals String Ascii Arith Bool List.
From Verif Require Import Py.
Import ListNotations.
Open Scope string_scope.

(** [str(n)] for a non-negative integer (Python built-in). *)
Definition str_nat (n : nat) : string := NilEmpty.string_of_uint (Nat.to_uint n).

(** ['{}{}'.format(parameter, num_planet)], model.py:167-168, basis.py:240. *)
Definition key (p : string) (n : nat) : string := p ++ str_nat n.

(** [s.split()] (Python built-in; only the blank is treated as white space). *)
Fixpoint split_aux (s cur : string) : list string :=
  match s with
  | EmptyString => if String.eqb cur "" then [] else [cur]
  | String c r =>
      if Ascii.eqb c " "%char
      then (if String.eqb cur "" then split_aux r "" else cur :: split_aux r "")
      else split_aux r (cur ++ String c "")
  end.
Definition split (s : string) : list string := split_aux s "".

(** The [vary] attribute: a boolean, or the empty string that
    [Basis.to_synth] stores (basis.py:262). *)
Inductive varyv := VBool (b : bool) | VEmpty.

(** class Parameter, model.py:38-69.  [None] in [p_value] is Python's None
    (or nan: the model does not tell them apart). *)
Record param := mkParam {
  p_value : option R;
  p_vary : varyv;
  p_scale : option R;
  p_lin : bool }.

(** [Parameter()] and [Parameter(value=v)], model.py:49-53. *)
Definition parameter_default : param := mkParam None (VBool true) None false.

(** class Basis: attributes name, num_planets, params, basis.py:85-101. *)
Record basis := mkBasis { b_name : string; b_num : nat; b_params : list string }.

(** Basis.__init__, basis.py:85-101.  An unknown name is only reported on the
    standard output, the object is built all the same. *)
Definition basis_init (name : string) (num : nat) : basis := mkBasis name num (split name).

Definition heap := list param.

(** Replace element [i] of a list (assignment to an array element in range). *)
Fixpoint list_upd {A} (l : list A) (i : nat) (x : A) : list A :=
  match l, i with
  | [], _ => []
  | _ :: r, 0 => x :: r
  | y :: r, S i' => y :: list_upd r i' x
  end.

(** class Parameters, model.py:72-130: the ordered dictionary and the
    attributes basis, num_planets, planet_parameters, planet_letters. *)
Record params := mkParams {
  ps_items : dict nat;
  ps_basis : basis;
  ps_num : nat;
  ps_pp : list string;
  ps_letters : option (list (nat * string)) }.

(** [d[k] = Parameter(...)]: allocates a new object. *)
Definition set_new (hd : heap * dict nat) (k : string) (p : param) : heap * dict nat :=
  (fst hd ++ [p], dset (snd hd) k (length (fst hd)))%list.

(** The keys created by Parameters.__init__, model.py:105-109, in order. *)
Definition default_keys (num : nat) (names : list string) : list string :=
  flat_map (fun n => map (fun p => key p n) names) (seq 1 num).

(** Parameters.__init__, model.py:99-120.  The assertion that planet_letters
    has integer keys holds by typing. *)
Definition parameters_init (h : heap) (num : nat) (name : string)
    (letters : option (list (nat * string))) : heap * params :=
  let b := basis_init name num in
  let pp := split (b_name b) in
  let '(h', d) := fold_left (fun hd k => set_new hd k parameter_default)
                            (default_keys num pp) (h, []) in
  (h', mkParams d b num pp letters).

(** Attribute lookup [params[k].value] etc. *)
Definition get_param (h : heap) (d : dict nat) (k : string) : option param :=
  match dget d k with Some l => nth_error h l | None => None end.

(** copy.copy / pickle of a Parameters object through __reduce__,
    model.py:122-129: rebuild with the constructor, then set every item.
    [copy_object] is how an item is copied: the same object (copy.copy) or a
    clone (copy.deepcopy, pickle; two keys never share a Parameter object in
    the parameter sets considered, so the memo table is not modelled). *)
Definition reduce_copy (deep : bool) (h : heap) (ps : params) : heap * params :=
  let '(h1, q) := parameters_init h (ps_num ps) (b_name (ps_basis ps)) (ps_letters ps) in
  let '(h2, d) :=
    fold_left (fun hd kl =>
                 if deep then
                   match nth_error h (snd kl) with
                   | Some p => set_new hd (fst kl) p
                   | None => hd
                   end
                 else (fst hd, dset (snd hd) (fst kl) (snd kl)))
              (ps_items ps) (h1, ps_items q) in
  (h2, mkParams d (ps_basis q) (ps_num q) (ps_pp q) (ps_letters q)).

(** ** class Vector, model.py:183-250 *)

(** A row of the [n x 4] array.  [None] is nan. *)
Record row := mkRow { r_val : option R; r_vary : bool; r_scale : option R; r_lin : bool }.

(** a row of [np.zeros((.., 4))] *)
Definition zero_row : row := mkRow (Some 0%R) false (Some 0%R) false.

Definition startswith (k pre : string) : bool := String.prefix pre k.

(** the test of model.py:197 *)
Definition is_extra (k : string) : bool :=
  startswith k "gamma" || startswith k "jit" || startswith k "logjit" || startswith k "gp".

(** model.py:201-207 for one planet; [5 * n - 5] is Python's [-5+(5*n)], n >= 1. *)
Definition planet_indices (n : nat) : dict nat :=
  [ (key "per" n, 5 * n - 5); (key "logper" n, 5 * n - 5);
    (key "tc" n, 5 * n - 4); (key "tp" n, 5 * n - 4);
    (key "secosw" n, 5 * n - 3); (key "ecosw" n, 5 * n - 3);
    (key "e" n, 5 * n - 3); (key "se" n, 5 * n - 3);
    (key "sesinw" n, 5 * n - 2); (key "esinw" n, 5 * n - 2);
    (key "w" n, 5 * n - 2); (key "k" n, 5 * n - 1);
    (key "logk" n, 5 * n - 1) ]%nat.

(** model.py:195-199: instrument and GP parameters, numbered in key order *)
Fixpoint extra_indices (num : nat) (c : nat) (keys : list string) (d : dict nat) : dict nat :=
  match keys with
  | [] => d
  | k :: r => if is_extra k
              then extra_indices num (S c) r (dset d k (2 + c + 5 * num)%nat)
              else extra_indices num c r d
  end.

(** Vector.init_index_dict, model.py:193-209. *)
Definition init_index_dict (num : nat) (keys : list string) : dict nat :=
  let d0 := extra_indices num 0 keys [] in
  let d1 := fold_left (fun d n => dupdate d (planet_indices n)) (seq 1 num) d0 in
  dupdate d1 [("dvdt", (5 * num)%nat); ("curv", (1 + 5 * num)%nat)].

(** number of rows for absent trend parameters, model.py:212-216 *)
Definition n_missing (d : dict nat) : nat :=
  (if dmem d "dvdt" then 0 else 1) + (if dmem d "curv" then 0 else 1).

(** body of the loop of Vector.dict_to_vector, model.py:218-228; a missing
    index is the swallowed KeyError; an index outside the array raises
    IndexError; a non-numeric vary ('') raises ValueError. *)
Definition dv_step (h : heap) (d : dict nat) (idx : dict nat) (v : list row) (k : string)
  : res (list row) :=
  match dget idx k with
  | None => Ok v
  | Some i =>
      match get_param h d k with
      | None => Err (KeyError k)
      | Some p =>
          if Nat.ltb i (length v) then
            match p_vary p with
            | VEmpty => Err ValueError
            | VBool b =>
                Ok (list_upd v i (mkRow (p_value p) b
                      (match p_scale p with None => Some 0%R | Some s => Some s end) (p_lin p)))
            end
          else Err IndexError
      end
  end.

(** Vector.dict_to_vector, model.py:211-229. *)
Definition dict_to_vector (h : heap) (d : dict nat) (idx : dict nat) : res (list row) :=
  for_each (dkeys d) (dv_step h d idx)
           (repeat zero_row (length (dkeys d) + n_missing d)).

(** loops of Vector.vector_names, model.py:233-242; [None] is the integer 0 *)
Definition vn_step (idx : dict nat) (nm : list (option string)) (k : string)
  : res (list (option string)) :=
  match dget idx k with
  | None => Ok nm
  | Some i => if Nat.ltb i (length nm) then Ok (list_upd nm i (Some k)) else Err IndexError
  end.

Definition vn_extra (d : dict nat) (idx : dict nat) (nm : list (option string)) (k : string)
  : res (list (option string)) :=
  if dmem d k then Ok nm
  else match dget idx k with
       | None => Err (KeyError k)
       | Some i => match nth_error nm i with
                   | None => Err IndexError
                   | Some (Some _) => Err AssertionError
                   | Some None => Ok (list_upd nm i (Some k))
                   end
       end.

(** Vector.vector_names, model.py:231-243. *)
Definition vector_names (d : dict nat) (idx : dict nat) : res (list string) :=
  do nm <- for_each (dkeys d) (vn_step idx) (repeat None (length (dkeys d) + 2));
  do nm2 <- for_each ["dvdt"; "curv"] (vn_extra d idx) nm;
  Ok (flat_map (fun o => match o with Some s => [s] | None => [] end) nm2).

(** Vector.vector_to_dict, model.py:245-250: assigns the [value] attribute of
    the Parameter objects (in the heap, hence visible to every holder). *)
Definition vd_step (d : dict nat) (idx : dict nat) (v : list row) (h : heap) (k : string)
  : res heap :=
  match dget idx k with
  | None => Ok h
  | Some i =>
      match nth_error v i with
      | None => Err IndexError
      | Some r =>
          match dget d k with
          | None => Err (KeyError k)
          | Some l =>
              match nth_error h l with
              | None => Err (KeyError k)
              | Some p => Ok (list_upd h l (mkParam (r_val r) (p_vary p) (p_scale p) (p_lin p)))
              end
          end
      end
  end.

Definition vector_to_dict (d : dict nat) (idx : dict nat) (v : list row) (h : heap) : res heap :=
  for_each (dkeys d) (vd_step d idx v) h.

(** a Vector object: its params, indices, vector, names *)
Record vector := mkVector {
  v_indices : dict nat;
  v_vector : list row;
  v_names : list string }.

(** Vector.__init__, model.py:185-191. *)
Definition vector_init (h : heap) (ps : params) : res vector :=
  let idx := init_index_dict (ps_num ps) (dkeys (ps_items ps)) in
  do v <- dict_to_vector h (ps_items ps) idx;
  do nm <- vector_names (ps_items ps) idx;
  Ok (mkVector idx v nm).
