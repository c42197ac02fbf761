(** Model of radvel/basis.py: conversions between parametrisations, both on
    Parameters dictionaries and on vectors.  The pandas DataFrame branches
    (basis.py:242-244, 250-251, 258-259 ...) are not modelled. *)
From Coq Require Import Reals String Arith Bool List.
From Verif Require Import Py Params Kepler.
Import ListNotations.
Open Scope string_scope.

(** np.arctan2 *)
Definition np_arctan2 (y x : R) : R :=
  (if Rlt_dec 0 x then atan (y / x)
   else if Rlt_dec x 0 then
          (if Rle_dec 0 y then atan (y / x) + PI else atan (y / x) - PI)
   else if Rlt_dec 0 y then PI / 2
   else if Rlt_dec y 0 then - (PI / 2)
   else 0)%R.

(** BASIS_NAMES, basis.py:10-19. *)
Definition BASIS_NAMES : list string :=
  [ "per tp e w k";
    "per tc secosw sesinw logk";
    "per tc secosw sesinw k";
    "per tc ecosw esinw k";
    "per tc e w k";
    "per tc tp e w k";
    "logper tc secosw sesinw k";
    "logper tc secosw sesinw logk";
    "per tc se w k";
    "logper tp e w logk" ].

Definition str_in (s : string) (l : list string) : bool := existsb (String.eqb s) l.

(** _copy_params, basis.py:49-57: a fresh Parameters object with default
    entries, updated with the input's entries (the Parameter objects are
    shared with the input). *)
Definition copy_params (h : heap) (ps : params) : heap * params :=
  let '(h1, q) := parameters_init h (ps_num ps) (b_name (ps_basis ps)) (ps_letters ps) in
  (h1, mkParams (dupdate (ps_items q) (ps_items ps))
                (ps_basis q) (ps_num q) (ps_pp q) (ps_letters q)).

(** _getpar, basis.py:249-253 and 518-522.  A value None would make the
    arithmetic that follows raise TypeError; the model raises it here (the two
    bases whose values are only copied would accept None). *)
Definition getpar (h : heap) (d : dict nat) (n : nat) (p : string) : res R :=
  match get_param h d (key p n) with
  | None => Err (KeyError (key p n))
  | Some q => match p_value q with Some v => Ok v | None => Err TypeError end
  end.

(** Synth elements of one planet: the chain of [if basis_name == ...] of
    to_synth, basis.py:276-387.  For an unknown name the local variables are
    unbound (UnboundLocalError, rendered RuntimeError). *)
Definition synth_of (name : string) (get : string -> res R) : res (R * R * R * R * R) :=
  if String.eqb name "per tp e w k" then
    do per <- get "per"; do tp <- get "tp"; do e <- get "e"; do w <- get "w"; do k <- get "k";
    Ok (per, tp, e, w, k)
  else if String.eqb name "per tc e w k" then
    do per <- get "per"; do tc <- get "tc"; do e <- get "e"; do w <- get "w"; do k <- get "k";
    Ok (per, timetrans_to_timeperi tc per e w, e, w, k)
  else if String.eqb name "per tc tp e w k" then
    do per <- get "per"; do tp <- get "tp"; do e <- get "e"; do w <- get "w"; do k <- get "k";
    Ok (per, tp, e, w, k)
  else if String.eqb name "per tc se w k" then
    do per <- get "per"; do tc <- get "tc"; do se <- get "se"; do w <- get "w"; do k <- get "k";
    let e := (se ^ 2)%R in
    Ok (per, timetrans_to_timeperi tc per e w, e, w, k)
  else if String.eqb name "per tc secosw sesinw logk" then
    do per <- get "per"; do tc <- get "tc"; do secosw <- get "secosw"; do sesinw <- get "sesinw";
    do logk <- get "logk";
    let k := exp logk in
    let e := (secosw ^ 2 + sesinw ^ 2)%R in
    let w := np_arctan2 sesinw secosw in
    Ok (per, timetrans_to_timeperi tc per e w, e, w, k)
  else if String.eqb name "per tc secosw sesinw k" then
    do per <- get "per"; do tc <- get "tc"; do secosw <- get "secosw"; do sesinw <- get "sesinw";
    do k <- get "k";
    let e := (secosw ^ 2 + sesinw ^ 2)%R in
    let w := np_arctan2 sesinw secosw in
    Ok (per, timetrans_to_timeperi tc per e w, e, w, k)
  else if String.eqb name "logper tc secosw sesinw k" then
    do logper <- get "logper"; do tc <- get "tc"; do secosw <- get "secosw";
    do sesinw <- get "sesinw"; do k <- get "k";
    let per := exp logper in
    let e := (secosw ^ 2 + sesinw ^ 2)%R in
    let w := np_arctan2 sesinw secosw in
    Ok (per, timetrans_to_timeperi tc per e w, e, w, k)
  else if String.eqb name "logper tc secosw sesinw logk" then
    do logper <- get "logper"; do tc <- get "tc"; do secosw <- get "secosw";
    do sesinw <- get "sesinw"; do logk <- get "logk";
    let per := exp logper in
    let e := (secosw ^ 2 + sesinw ^ 2)%R in
    let k := exp logk in
    let w := np_arctan2 sesinw secosw in
    Ok (per, timetrans_to_timeperi tc per e w, e, w, k)
  else if String.eqb name "per tc ecosw esinw k" then
    do per <- get "per"; do tc <- get "tc"; do ecosw <- get "ecosw"; do esinw <- get "esinw";
    do k <- get "k";
    let e := sqrt (ecosw ^ 2 + esinw ^ 2) in
    let w := np_arctan2 esinw ecosw in
    Ok (per, timetrans_to_timeperi tc per e w, e, w, k)
  else if String.eqb name "logper tp e w logk" then
    do logper <- get "logper"; do tp <- get "tp"; do e <- get "e"; do w <- get "w";
    do logk <- get "logk";
    Ok (exp logper, tp, e, w, exp logk)
  else Err RuntimeError.

(** _setpar of to_synth, basis.py:255-273.  [src] is params_in. *)
Definition setpar_to (noVary : bool) (h0 : heap) (src : dict nat) (n : nat)
    (hd : heap * dict nat) (pv : string * R) : heap * dict nat :=
  let k := key (fst pv) n in
  match get_param h0 src k with
  | Some q => set_new hd k (mkParam (Some (snd pv)) (p_vary q) (p_scale q) false)
  | None => set_new hd k (mkParam (Some (snd pv)) (if noVary then VEmpty else VBool true) None false)
  end.

(** Basis.to_synth for a Parameters object, basis.py:227-399.  [kname] is the
    optional keyword basis_name. *)
Definition to_synth (h : heap) (self : basis) (ps : params)
    (noVary : bool) (kname : option string) : res (heap * params) :=
  let name := match kname with Some s => s | None => b_name self end in
  let '(h1, q) := copy_params h ps in
  do hd <- for_each (seq 1 (b_num self))
             (fun hd n =>
                do (per, tp, e, w, k) <- synth_of name (getpar h (ps_items ps) n);
                Ok (fold_left (setpar_to noVary h (ps_items ps) n)
                              [("per", per); ("tp", tp); ("e", e); ("w", w); ("k", k)] hd))
             (h1, ps_items q);
  let b := basis_init "per tp e w k" (b_num self) in
  Ok (fst hd, mkParams (snd hd) b (ps_num q) (split (b_name b)) (ps_letters q)).

(** What from_synth does to one planet: the values it sets, in order, and the
    keys it deletes when [keep] is false, basis.py:547-730.
    [has_tp]: 'tp' in params_in.planet_parameters. *)
Definition tp_source (has_tp : bool) (get : string -> res R) (per e w : R)
  : res (R * list (string * R)) :=
  if has_tp then do tp <- get "tp"; Ok (tp, [])
  else do tc <- get "tc";
       let tp := timetrans_to_timeperi tc per e w in Ok (tp, [("tp", tp)]).

Definition from_synth_of (newbasis : string) (has_tp : bool) (get : string -> res R)
  : res (list (string * R) * list string) :=
  if String.eqb newbasis "per tc e w k" then
    do per <- get "per"; do e <- get "e"; do w <- get "w"; do tp <- get "tp";
    Ok ([("tc", timeperi_to_timetrans tp per e w false); ("w", w)], ["tp"])
  else if String.eqb newbasis "per tc tp e w k" then
    do per <- get "per"; do e <- get "e"; do w <- get "w"; do tp <- get "tp";
    Ok ([("tc", timeperi_to_timetrans tp per e w false); ("w", w)], [])
  else if String.eqb newbasis "per tc se w k" then
    do per <- get "per"; do e <- get "e"; do w <- get "w"; do tp <- get "tp";
    Ok ([("tc", timeperi_to_timetrans tp per e w false); ("w", w); ("se", sqrt e)], ["tp"; "e"])
  else if String.eqb newbasis "per tc secosw sesinw logk" then
    do per <- get "per"; do e <- get "e"; do w <- get "w"; do k <- get "k";
    do (tp, pre) <- tp_source has_tp get per e w;
    Ok ((pre ++ [("secosw", sqrt e * cos w)%R; ("sesinw", sqrt e * sin w)%R; ("logk", ln k);
                 ("tc", timeperi_to_timetrans tp per e w false)])%list, ["tp"; "e"; "w"; "k"])
  else if String.eqb newbasis "per tc secosw sesinw k" then
    do per <- get "per"; do e <- get "e"; do w <- get "w"; do k <- get "k";
    do (tp, pre) <- tp_source has_tp get per e w;
    Ok ((pre ++ [("secosw", sqrt e * cos w)%R; ("sesinw", sqrt e * sin w)%R; ("k", k);
                 ("tc", timeperi_to_timetrans tp per e w false)])%list, ["tp"; "e"; "w"])
  else if String.eqb newbasis "logper tc secosw sesinw k" then
    do per <- get "per"; do e <- get "e"; do w <- get "w"; do k <- get "k";
    do (tp, pre) <- tp_source has_tp get per e w;
    Ok ((pre ++ [("logper", ln per); ("secosw", sqrt e * cos w)%R; ("sesinw", sqrt e * sin w)%R;
                 ("k", k); ("tc", timeperi_to_timetrans tp per e w false)])%list,
        ["per"; "tp"; "e"; "w"])
  else if String.eqb newbasis "logper tc secosw sesinw logk" then
    do per <- get "per"; do e <- get "e"; do w <- get "w"; do k <- get "k";
    do (tp, pre) <- tp_source has_tp get per e w;
    Ok ((pre ++ [("logper", ln per); ("secosw", sqrt e * cos w)%R; ("sesinw", sqrt e * sin w)%R;
                 ("logk", ln k); ("tc", timeperi_to_timetrans tp per e w false)])%list,
        ["per"; "tp"; "e"; "w"; "k"])
  else if String.eqb newbasis "per tc ecosw esinw k" then
    do per <- get "per"; do e <- get "e"; do w <- get "w"; do k <- get "k";
    do (tp, pre) <- tp_source has_tp get per e w;
    Ok ((pre ++ [("ecosw", e * cos w)%R; ("esinw", e * sin w)%R; ("k", k);
                 ("tc", timeperi_to_timetrans tp per e w false)])%list, ["tp"; "e"; "w"])
  else if String.eqb newbasis "logper tp e w logk" then
    do per <- get "per"; do e <- get "e"; do w <- get "w"; do k <- get "k";
    do (tp, pre) <- tp_source has_tp get per e w;
    Ok ((pre ++ [("logper", ln per); ("logk", ln k);
                 ("tc", timeperi_to_timetrans tp per e w false)])%list, ["per"; "k"])
  else Ok ([], []).

(** Does from_synth overwrite [self.name] with the target's name?
    basis.py:629, 655, 682, 706, 729; [self.params] also at 606. *)
Definition renames_self (newbasis : string) : bool :=
  str_in newbasis ["per tc secosw sesinw k"; "logper tc secosw sesinw k";
                   "logper tc secosw sesinw logk"; "per tc ecosw esinw k"; "logper tp e w logk"].

Definition self_after (self : basis) (newbasis : string) : basis :=
  if Nat.eqb (b_num self) 0 then self
  else if renames_self newbasis then mkBasis newbasis (b_num self) (split newbasis)
  else if String.eqb newbasis "per tc secosw sesinw logk"
       then mkBasis (b_name self) (b_num self) (split newbasis)
  else self.

(** _setpar of from_synth, basis.py:524-539. *)
Definition setpar_from (h0 : heap) (src : dict nat) (n : nat)
    (hd : heap * dict nat) (pv : string * R) : heap * dict nat :=
  let k := key (fst pv) n in
  match get_param h0 src k with
  | Some q => set_new hd k (mkParam (Some (snd pv)) (p_vary q) (p_scale q) false)
  | None => set_new hd k (mkParam (Some (snd pv)) (VBool true) None false)
  end.

(** _delpar, basis.py:541-545. *)
Definition delpar (n : nat) (d : dict nat) (p : string) : res (dict nat) := ddel d (key p n).

(** Basis.from_synth for a Parameters object, basis.py:488-741.  Returns the
    new state of [self] (the method assigns self.name and self.params) and
    the converted set, or None for an unknown target (basis.py:506-509). *)
Definition from_synth (h : heap) (self : basis) (ps : params) (newbasis : string) (keep : bool)
  : res (heap * basis * option params) :=
  if negb (str_in newbasis BASIS_NAMES) then Ok (h, self, None)
  else
    let '(h1, q) := copy_params h ps in
    do hd <- for_each (seq 1 (b_num self))
               (fun hd n =>
                  do (sets, dels) <- from_synth_of newbasis (str_in "tp" (ps_pp ps))
                                        (getpar h (ps_items ps) n);
                  let hd1 := fold_left (setpar_from h (ps_items ps) n) sets hd in
                  if keep then Ok hd1
                  else do d2 <- for_each dels (delpar n) (snd hd1); Ok (fst hd1, d2))
               (h1, ps_items q);
    let b := basis_init newbasis (b_num self) in
    Ok (fst hd, self_after self newbasis,
        Some (mkParams (snd hd) b (ps_num q) (split (b_name b)) (ps_letters q))).

(** Basis.to_any_basis, basis.py:106-118. *)
Definition to_any_basis (h : heap) (self : basis) (ps : params) (newbasis : string)
  : res (heap * basis * option params) :=
  do (h1, sp) <- to_synth h self ps true None;
  from_synth h1 self sp newbasis false.

(** The usual call [params.basis.to_any_basis(params, newbasis)]: self is the
    caller's own basis object, so its new state is the caller's. *)
Definition convert (h : heap) (ps : params) (newbasis : string)
  : res (heap * params * option params) :=
  do (h1, b, out) <- to_any_basis h (ps_basis ps) ps newbasis;
  Ok (h1, mkParams (ps_items ps) b (ps_num ps) (ps_pp ps) (ps_letters ps), out).

(** ** Vector conversions *)

(** vector[i][0]; IndexError outside; rows are assumed to hold numbers
    (a nan element raises TypeError here where numpy would propagate nan). *)
Definition vget (v : list row) (i : nat) : res R :=
  match nth_error v i with
  | None => Err IndexError
  | Some r => match r_val r with Some x => Ok x | None => Err TypeError end
  end.

(** vector2[i][0] = x *)
Definition vset (v : list row) (i : nat) (x : R) : list row :=
  match nth_error v i with
  | None => v
  | Some r => list_upd v i (mkRow (Some x) (r_vary r) (r_scale r) (r_lin r))
  end.

(** setvary, basis.py:134-142 and 409-412: vary flag, and None becomes nan *)
Definition setvary (b : bool) (v : list row) (is : list nat) : list row :=
  fold_left (fun v i => match nth_error v i with
                        | None => v
                        | Some r => list_upd v i (mkRow (r_val r) b None (r_lin r))
                        end) is v.

Definition vassign (v : list row) (l : list (nat * R)) : list row :=
  fold_left (fun v ix => vset v (fst ix) (snd ix)) l v.

(** One planet of v_to_synth, basis.py:144-222: rows read from [vector],
    assignments in order and rows passed to setvary.  [b = 5*num_planet]. *)
Definition v_to_synth_of (name : string) (v : list row) (b : nat)
  : res (list (nat * R) * list nat) :=
  do x0 <- vget v b; do x1 <- vget v (1 + b); do x2 <- vget v (2 + b);
  do x3 <- vget v (3 + b); do x4 <- vget v (4 + b);
  if String.eqb name "per tc e w k" then
    Ok ([((1 + b)%nat, timetrans_to_timeperi x1 x0 x2 x3)], [1 + b]%nat)
  else if String.eqb name "per tc se w k" then
    let e := (x2 ^ 2)%R in
    Ok ([((2 + b)%nat, e); ((1 + b)%nat, timetrans_to_timeperi x1 x0 e x3)], [2 + b; 1 + b]%nat)
  else if String.eqb name "per tc secosw sesinw logk" then
    let e := (x2 ^ 2 + x3 ^ 2)%R in
    let w := np_arctan2 x3 x2 in
    Ok ([((4 + b)%nat, exp x4); ((2 + b)%nat, e); ((3 + b)%nat, w);
         ((1 + b)%nat, timetrans_to_timeperi x1 x0 e w)], [4 + b; 2 + b; 3 + b; 1 + b]%nat)
  else if String.eqb name "per tc secosw sesinw k" then
    let e := (x2 ^ 2 + x3 ^ 2)%R in
    let w := np_arctan2 x3 x2 in
    Ok ([((2 + b)%nat, e); ((3 + b)%nat, w);
         ((1 + b)%nat, timetrans_to_timeperi x1 x0 e w)], [2 + b; 3 + b; 1 + b]%nat)
  else if String.eqb name "logper tc secosw sesinw k" then
    let e := (x2 ^ 2 + x3 ^ 2)%R in
    let w := np_arctan2 x3 x2 in
    let per := exp x0 in
    Ok ([((2 + b)%nat, e); ((3 + b)%nat, w); (b, per);
         ((1 + b)%nat, timetrans_to_timeperi x1 per e w)], [2 + b; 3 + b; b; 1 + b]%nat)
  else if String.eqb name "logper tc secosw sesinw logk" then
    let e := (x2 ^ 2 + x3 ^ 2)%R in
    let w := np_arctan2 x3 x2 in
    let per := exp x0 in
    Ok ([((2 + b)%nat, e); ((3 + b)%nat, w); (b, per); ((4 + b)%nat, exp x4);
         ((1 + b)%nat, timetrans_to_timeperi x1 per e w)], [2 + b; 3 + b; b; 4 + b; 1 + b]%nat)
  else if String.eqb name "per tc ecosw esinw k" then
    let e := sqrt (x2 ^ 2 + x3 ^ 2) in
    let w := np_arctan2 x3 x2 in
    Ok ([((2 + b)%nat, e); ((3 + b)%nat, w);
         ((1 + b)%nat, timetrans_to_timeperi x1 x0 e w)], [3 + b; 2 + b; 1 + b]%nat)
  else if String.eqb name "logper tp e w logk" then
    Ok ([((4 + b)%nat, exp x4); (b, exp x0)], [4 + b; b]%nat)
  else Ok ([], []).

(** Basis.v_to_synth, basis.py:125-224.  The model reads all five rows of a
    planet first, so it also raises where the code would not look at a row
    (only the synth basis returns at once, basis.py:152-153). *)
Definition v_to_synth (self : basis) (v : list row) (noVary : bool) (kname : option string)
  : res (list row) :=
  let name := match kname with Some s => s | None => b_name self end in
  if String.eqb name "per tp e w k" then Ok v
  else
    for_each (seq 0 (b_num self))
      (fun v2 n =>
         do (l, vs) <- v_to_synth_of name v (5 * n);
         Ok (setvary (negb noVary) (vassign v2 l) vs))
      v.

(** One planet of v_from_synth, basis.py:416-482. *)
Definition v_from_synth_of (name : string) (v : list row) (b : nat)
  : res (list (nat * R) * list nat) :=
  do x0 <- vget v b; do x1 <- vget v (1 + b); do x2 <- vget v (2 + b);
  do x3 <- vget v (3 + b); do x4 <- vget v (4 + b);
  let tc := timeperi_to_timetrans x1 x0 x2 x3 false in
  if String.eqb name "per tc e w k" then
    Ok ([((1 + b)%nat, tc)], [3 + b]%nat)
  else if String.eqb name "per tc se w k" then
    Ok ([((1 + b)%nat, tc); ((2 + b)%nat, sqrt x2)], [1 + b; 2 + b]%nat)
  else if String.eqb name "per tc secosw sesinw logk" then
    Ok ([((1 + b)%nat, tc); ((2 + b)%nat, sqrt x2 * cos x3)%R; ((3 + b)%nat, sqrt x2 * sin x3)%R;
         ((4 + b)%nat, ln x4)], [1 + b; 2 + b; 3 + b; 4 + b]%nat)
  else if String.eqb name "per tc secosw sesinw k" then
    Ok ([((1 + b)%nat, tc); ((2 + b)%nat, sqrt x2 * cos x3)%R; ((3 + b)%nat, sqrt x2 * sin x3)%R],
        [1 + b; 2 + b; 3 + b]%nat)
  else if String.eqb name "logper tc secosw sesinw k" then
    Ok ([((1 + b)%nat, tc); ((2 + b)%nat, sqrt x2 * cos x3)%R; ((3 + b)%nat, sqrt x2 * sin x3)%R;
         (b, ln x0)], [1 + b; 2 + b; 3 + b; b]%nat)
  else if String.eqb name "logper tc secosw sesinw logk" then
    Ok ([((1 + b)%nat, tc); ((2 + b)%nat, sqrt x2 * cos x3)%R; ((3 + b)%nat, sqrt x2 * sin x3)%R;
         (b, ln x0); ((4 + b)%nat, ln x4)], [1 + b; 2 + b; 3 + b; b; 4 + b]%nat)
  else if String.eqb name "per tc ecosw esinw k" then
    Ok ([((1 + b)%nat, tc); ((2 + b)%nat, x2 * cos x3)%R; ((3 + b)%nat, x2 * sin x3)%R],
        [1 + b; 2 + b; 3 + b]%nat)
  else if String.eqb name "logper tp e w logk" then
    Ok ([(b, ln x0); ((4 + b)%nat, ln x4)], [b; 4 + b]%nat)
  else Ok ([], []).

(** Basis.v_from_synth, basis.py:401-485 (same remark on errors). *)
Definition v_from_synth (self : basis) (v : list row) (newbasis : string) : res (list row) :=
  for_each (seq 0 (b_num self))
    (fun v2 n =>
       do (l, vs) <- v_from_synth_of newbasis v (5 * n);
       Ok (setvary true (vassign v2 l) vs))
    v.

(** Basis.v_to_any_basis, basis.py:120-123. *)
Definition v_to_any_basis (self : basis) (v : list row) (newbasis : string) : res (list row) :=
  do v1 <- v_to_synth self v true None; v_from_synth self v1 newbasis.
