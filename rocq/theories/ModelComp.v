(** Model of radvel/fitting.py, model_comp.

    A posterior is represented by what model_comp reads and changes: the rows of its
    Vector (value and vary flag; values may be -inf here, so they are [ext]) and the two
    cached lists post.vary_params and post.likelihood.vary_params.  copy.deepcopy gives an
    independent posterior, i.e. the same value.  The fit with its statistics
    (fitting.py:84-168, maxlike_fitting is in Fitting.v) is an argument [fit].
    The list [mc_list] is one object, extended in place by every fit; it is threaded
    through, also when a call raises.  Warnings are not modelled. *)
From Coq Require Import Reals String Ascii Arith Bool List.
From Verif Require Import Py PyFloat Params Basis Likelihood.
Import ListNotations.
Open Scope string_scope.

Record mrow := mkM { m_val : ext; m_vary : bool }.
Record pst := mkPst { m_rows : list mrow; m_cp : option (list nat); m_cl : option (list nat) }.

(** what is read but never changed: vector.indices, vector.names, params.basis.name,
    model.num_planets, likelihood.hnames (None: no such attribute) *)
Record menv := mkEnv {
  e_idx : dict nat; e_names : list string; e_basis : string; e_num : nat; e_hnames : option (list string) }.

(** ECCENTRICITY_PARAMS_DICT, CIRCULAR_PARAMS_DICT, basis.py:21-41 *)
Definition ECCENTRICITY_PARAMS_DICT : dict string :=
  [("per tp e w k", "e w"); ("per tc secosw sesinw logk", "secosw sesinw"); ("per tc secosw sesinw k", "secosw sesinw");
   ("per tc ecosw esinw k", "ecosw esinw"); ("per tc e w k", "e w"); ("logper tc secosw sesinw k", "secosw sesinw");
   ("logper tc secosw sesinw logk", "secosw sesinw"); ("per tc se w k", "se w"); ("logper tp e w logk", "e w")].
Definition CIRCULAR_PARAMS_DICT : dict string :=
  [("per tp e w k", "per tp k"); ("per tc secosw sesinw logk", "per tc logk"); ("per tc secosw sesinw k", "per tc k");
   ("per tc ecosw esinw k", "per tc k"); ("per tc e w k", "per tc k"); ("logper tc secosw sesinw k", "logper tc k");
   ("logper tc secosw sesinw logk", "logper tc logk"); ("per tc se w k", "per tc k"); ("logper tp e w logk", "logper tp logk")].

(** Basis.get_eparams, get_circparams, basis.py:743-770 *)
Definition params_of (d : dict string) (n : nat) (name : string) : res (list string) :=
  if negb (str_in name BASIS_NAMES) then Err AssertionError
  else do s <- dget_res d name;
       let l := split s in
       if Nat.eqb (length l) n then Ok l else Err AssertionError.
Definition get_eparams : string -> res (list string) := params_of ECCENTRICITY_PARAMS_DICT 2.
Definition get_circparams : string -> res (list string) := params_of CIRCULAR_PARAMS_DICT 3.

(** [vector[indices[k]]] and assignments to its columns 0 and 1 *)
Definition row_at (env : menv) (s : pst) (k : string) : res (nat * mrow) :=
  do i <- dget_res (e_idx env) k;
  match nth_error (m_rows s) i with Some r => Ok (i, r) | None => Err IndexError end.
Definition flag (env : menv) (s : pst) (k : string) : res bool :=
  do ir <- row_at env s k; Ok (m_vary (snd ir)).
Definition put_val (env : menv) (x : ext) (s : pst) (k : string) : res pst :=
  do ir <- row_at env s k;
  Ok (mkPst (list_upd (m_rows s) (fst ir) (mkM x (m_vary (snd ir)))) (m_cp s) (m_cl s)).
Definition put_fixed (env : menv) (s : pst) (k : string) : res pst :=
  do ir <- row_at env s k;
  Ok (mkPst (list_upd (m_rows s) (fst ir) (mkM (m_val (snd ir)) false)) (m_cp s) (m_cl s)).

(** post.list_vary_params(); post.likelihood.list_vary_params() *)
Fixpoint where_free (i : nat) (l : list mrow) : list nat :=
  match l with [] => [] | r :: s => if m_vary r then i :: where_free (S i) s else where_free (S i) s end.
Definition relist (s : pst) : pst :=
  mkPst (m_rows s) (Some (where_free 0 (m_rows s))) (Some (where_free 0 (m_rows s))).

(** itertools.combinations(l, p), and the chain of fitting.py:265-267 *)
Fixpoint combinations (p : nat) (l : list nat) : list (list nat) :=
  match p, l with
  | O, _ => [[]]
  | S p', x :: r => (map (cons x) (combinations p' r) ++ combinations p r)%list
  | S _, [] => []
  end.
Definition plgroups (num : nat) : list (list nat) :=
  flat_map (fun p => combinations p (seq 1 num)) (seq 1 num).
(** fitting.py:269-271 *)
Definition plparams (names : list string) (num : nat) : list (list (list string)) :=
  map (fun g => map (fun n => map (fun p => key p n) names) g) (plgroups num).

(** all([any([flag ...]) ...]): list comprehensions, so every flag is read first *)
Definition all_any (env : menv) (s : pst) (sets : list (list string)) : res bool :=
  do bs <- map_res (fun l => do fs <- map_res (flag env s) l; Ok (existsb (fun b => b) fs)) sets;
  Ok (forallb (fun b => b) bs).

Definition without (x : string) (l : list string) : list string := filter (fun p => negb (String.eqb p x)) l.
Definition valid_mc_args : list string := ["e"; "nplanets"; "trend"; "jit"; "gp"].

Section ModelComp.
  Variables (stats : Type) (env : menv) (fit : pst -> pst * res stats).

  (** state after a call: the posterior passed, mc_list, outcome *)
  Definition out := (pst * list stats * res unit)%type.

  (** params = [], fitting.py:84-168: the posterior passed is itself fitted *)
  Definition mc_base (post : pst) (l : list stats) : out :=
    let '(post', r) := fit post in
    match r with
    | Ok st => (post', (l ++ [st])%list, Ok tt)
    | Err e => (post', l, Err e)
    end.

  Section Rec.
    Variable rec : list string -> pst -> list stats -> out.

    (** a recursive call on a copy, whose final state is dropped *)
    Definition on_copy (params : list string) (c : pst) (l : list stats) : list stats * res unit :=
      let '(_, l', r) := rec params c l in (l', r).

    (** fitting.py:172-208 *)
    Definition gp_step (ipost : pst) (k : string) : res pst :=
      do s <- (if startswith k "gp_amp" then put_val env (Fin 0) ipost k else Ok ipost);
      do f <- flag env s k;
      if f then put_val env (Fin 0) s k else Ok s.
    Definition mc_gp (params : list string) (post : pst) (l : list stats) : out :=
      if existsb (substr_in "gp_amp") (e_names env) then
        match e_hnames env with
        | None => (post, l, Err AttributeError)
        | Some hnames =>
            match for_each hnames gp_step post with
            | Err e => (post, l, Err e)
            | Ok ipost =>
                let '(l1, r1) := on_copy params ipost l in
                match r1 with
                | Err e => (post, l1, Err e)
                | Ok _ => rec params (relist post) l1
                end
            end
        end
      else rec params (relist post) l.

    (** fitting.py:210-232; cpost and whether any jitter was free *)
    Definition jit_step (ipost : pst) (st : pst * bool) (k : string) : res (pst * bool) :=
      if startswith k "jit" then
        do f <- flag env ipost k;
        if f then
          do c1 <- put_val env (Fin (/ 10 ^ 6)%R) (fst st) k;
          do c2 <- put_fixed env c1 k;
          Ok (c2, true)
        else Ok st
      else Ok st.
    Definition mc_jit (params : list string) (post : pst) (l : list stats) : out :=
      match for_each (e_names env) (jit_step post) (post, false) with
      | Err e => (post, l, Err e)
      | Ok (cpost, any) =>
          let '(l1, r1) := if any then on_copy params (relist cpost) l else (l, Ok tt) in
          match r1 with
          | Err e => (post, l1, Err e)
          | Ok _ => let '(l2, r2) := on_copy params (relist post) l1 in (post, l2, r2)
          end
      end.

    (** fitting.py:234-255: ipost, mc_list *)
    Definition trend_step (params : list string) (st : pst * list stats) (k : string) : (pst * list stats) * res unit :=
      let '(ipost, l) := st in
      match flag env ipost k with
      | Err e => ((ipost, l), Err e)
      | Ok false => ((ipost, l), Ok tt)
      | Ok true =>
          match put_val env (Fin 0) ipost k with
          | Err e => ((ipost, l), Err e)
          | Ok i1 =>
              let '(l1, r1) := on_copy params (relist i1) l in
              match r1 with
              | Err e => ((i1, l1), Err e)
              | Ok _ => match put_fixed env i1 k with
                        | Err e => ((i1, l1), Err e)
                        | Ok i2 => ((i2, l1), Ok tt)
                        end
              end
          end
      end.
    Definition mc_trend (params : list string) (post : pst) (l : list stats) : out :=
      let '((i1, l1), r1) := trend_step params (post, l) "curv" in
      match r1 with
      | Err e => (post, l1, Err e)
      | Ok _ =>
          let '((i2, l2), r2) := trend_step params (i1, l1) "dvdt" in
          match r2 with
          | Err e => (post, l2, Err e)
          | Ok _ => let '(l3, r3) := on_copy params (relist i2) l2 in (post, l3, r3)
          end
      end.

    (** the loops of fitting.py:272-288 and 307-318: one fit for every set all of
        whose planets have a free parameter *)
    Definition change_all (change : pst -> string -> res pst) (sets : list (list string)) (c : pst) : res pst :=
      for_each sets (fun c l => for_each l change c) c.
    Fixpoint sets_loop (change : pst -> string -> res pst) (finish : pst -> res pst) (params : list string) (post : pst)
        (sets : list (list (list string))) (l : list stats) : list stats * res unit :=
      match sets with
      | [] => (l, Ok tt)
      | set :: r =>
          match all_any env post set with
          | Err e => (l, Err e)
          | Ok false => sets_loop change finish params post r l
          | Ok true =>
              match (do c <- change_all change set post; finish c) with
              | Err e => (l, Err e)
              | Ok c =>
                  let '(l1, r1) := on_copy params c l in
                  match r1 with Err e => (l1, Err e) | Ok _ => sets_loop change finish params post r l1 end
              end
          end
      end.

    (** fitting.py:279-283 *)
    Definition starts_k (k : string) : bool := startswith k "k".
    Definition remove_param (c : pst) (k : string) : res pst :=
      do c1 <- (if starts_k k then put_val env (Fin 0) c k else Ok c);
      do c2 <- (if startswith k "logk" then put_val env NInf c1 k else Ok c1);
      put_fixed env c2 k.
    (** fitting.py:284-286: del cpost.vary_params *)
    Definition finish_np (c : pst) : res pst :=
      match m_cp c with None => Err AttributeError | Some _ => Ok (relist c) end.
    (** fitting.py:311-312 *)
    Definition circularise (c : pst) (k : string) : res pst :=
      do c1 <- put_val env (Fin 0) c k; put_fixed env c1 k.

    Definition mc_sets (names : res (list string)) (change : pst -> string -> res pst) (finish : pst -> res pst)
        (params : list string) (post : pst) (l : list stats) : out :=
      match names with
      | Err e => (post, l, Err e)
      | Ok names =>
          let '(l1, r1) := sets_loop change finish params post (plparams names (e_num env)) l in
          match r1 with
          | Err e => (post, l1, Err e)
          | Ok _ => let '(l2, r2) := on_copy params (relist post) l1 in (post, l2, r2)
          end
      end.
    (** fitting.py:257-291 *)
    Definition mc_nplanets : list string -> pst -> list stats -> out :=
      mc_sets (do ep <- get_eparams (e_basis env); do cp <- get_circparams (e_basis env); Ok (ep ++ cp)%list) remove_param finish_np.
    (** fitting.py:293-326 *)
    Definition mc_e : list string -> pst -> list stats -> out :=
      mc_sets (get_eparams (e_basis env)) circularise (fun c => Ok (relist c)).
  End Rec.

  (** model_comp, fitting.py:49-333.  The fuel bounds the recursion depth; every
      recursive call has removed an element from [params]. *)
  Fixpoint mc (fuel : nat) (params : list string) (post : pst) (l : list stats) : out :=
    if negb (forallb (fun p => str_in p valid_mc_args) params) then (post, l, Err AssertionError)
    else match params with
    | [] => mc_base post l
    | _ =>
        match fuel with
        | O => (post, l, Err OutOfFuel)
        | S n =>
            if str_in "gp" params then mc_gp (mc n) (without "gp" params) post l
            else if str_in "jit" params then mc_jit (mc n) (without "jit" params) post l
            else if str_in "trend" params then mc_trend (mc n) (without "trend" params) post l
            else if str_in "nplanets" params then mc_nplanets (mc n) (without "nplanets" params) post l
            else if str_in "e" params then mc_e (mc n) (without "e" params) post l
            else (post, l, Err ValueError) (* NotImplementedError, never reached *)
        end
    end.
  Definition model_comp (params : list string) (post : pst) (l : list stats) : out :=
    mc (length params) params post l.

  (** calls without mc_list: the default list object is shared by all calls; the list
      returned is that object *)
  Fixpoint default_calls (calls : list (list string * pst)) (d : list stats) : list (res (list stats)) * list stats :=
    match calls with
    | [] => ([], d)
    | (params, post) :: r =>
        let '(_, d1, o) := model_comp params post d in
        let '(os, d2) := default_calls r d1 in
        ((match o with Ok _ => Ok d1 | Err e => Err e end) :: os, d2)
    end.
End ModelComp.
