(** Model of the text of a likelihood and of a posterior: Likelihood.__repr__, radvel/likelihood.py:52-138,
    Posterior.__repr__, radvel/posterior.py:32-38, and of the uncertainties of a CompositeLikelihood, likelihood.py:253-270.

    [g] is the format 'g' of a number, None being nan; widths are those of the format strings.  [uparams] is None before a
    sampling run.  A value that is None (only a parameter without an index can have it) raises TypeError where it is compared
    or formatted, and the parameter is left out; nan is told from None by the index.  Parameters whose value is nan make
    to_synth raise in the model (Basis.v), in the code they give nan. *)
From Coq Require Import Reals String Ascii Arith Bool List.
From Verif Require Import Py Params Basis.
Import ListNotations.
Open Scope string_scope.

Definition nl : string := String "010" "".
Fixpoint spaces (n : nat) : string := match n with O => "" | S n => String " " (spaces n) end.
(** '{:<20s}'.format, '{:>15s}'.format *)
Definition padr (n : nat) (s : string) : string := s ++ spaces (n - String.length s).
Definition padl (n : nat) (s : string) : string := spaces (n - String.length s) ++ s.
(** str(vary) *)
Definition vstr (v : varyv) : string := match v with VBool true => "True" | VBool false => "False" | VEmpty => "" end.

Section Text.
  Variables (g : option R -> string) (time_base : R) (uparams : option (dict (option R))).
  (** likelihood.py:63-66, 79-82, 101-105, 122-125 *)
  Definition shift (k : string) (x : option R) : option R :=
    match x with
    | Some v => if (startswith k "tc" || startswith k "tp") && rltb (10 ^ 6) v then Some (v - time_base)%R else Some v
    | None => None
    end.
  (** likelihood.py:68-70, 107-109 *)
  Definition text_line (k : string) (x : option R) (vary : varyv) : string :=
    match uparams with
    | None => padr 20 k ++ padl 15 (g (shift k x)) ++ " " ++ padl 10 (vstr vary) ++ nl
    | Some u => padr 20 k ++ padl 15 (g (shift k x)) ++ padl 10 (g (match dget u k with Some e => e | None => Some 0%R end)) ++ padl 10 (vstr vary) ++ nl
    end.
  Definition text_header : string :=
    match uparams with
    | None => padr 20 "parameter" ++ padl 15 "value" ++ padl 10 "vary" ++ nl
    | Some _ => padr 20 "parameter" ++ padl 15 "value" ++ padl 10 "+/-" ++ padl 10 "vary" ++ nl
    end.
  (** the loops over keys, likelihood.py:59-72, 75-86, 93-111, 114-131 *)
  Definition entry_text (idx : dict nat) (h : heap) (d : dict nat) (k : string) : string :=
    match get_param h d k with
    | None => ""
    | Some p =>
        match p_value p with
        | Some v => text_line k (Some v) (p_vary p)
        | None => if dmem idx k then text_line k None (p_vary p) else ""
        end
    end.
  Definition entries_text (idx : dict nat) (h : heap) (d : dict nat) (keys : list string) : string :=
    fold_left (fun s k => s ++ entry_text idx h d k) keys "".
  (** the text and the parameter objects after it *)
  Definition like_repr (idx : dict nat) (v : list row) (h : heap) (ps : params) : res (heap * string) :=
    do h1 <- vector_to_dict (ps_items ps) idx v h;
    let s := text_header ++ entries_text idx h1 (ps_items ps) (dkeys (ps_items ps)) in
    match to_synth h1 (ps_basis ps) ps true None with
    | Ok (h2, sp) => Ok (h1, s ++ entries_text [] h2 (ps_items sp) (filter (fun k => negb (dmem (ps_items ps) k)) (dkeys (ps_items sp))))
    | Err TypeError => Ok (h1, s)
    | Err e => Err e
    end.
  (** Posterior.__repr__; [priors] are their descriptions *)
  Definition post_repr (idx : dict nat) (v : list row) (h : heap) (ps : params) (priors : list string) : res (heap * string) :=
    do (h1, s) <- like_repr idx v h ps;
    Ok (h1, fold_left (fun s p => s ++ p ++ nl) priors (s ++ nl ++ "Priors" ++ nl ++ "------" ++ nl)).
End Text.

(** CompositeLikelihood.__init__, likelihood.py:253-270: dict.update returns None, and None has no update; update(None) raises
    TypeError.  The result: the composite's uncertainties and those of the first likelihood, whose dictionary is updated. *)
Fixpoint composite_uparams (rest : list (option (dict (option R)))) (self first : option (dict (option R))) : res (option (dict (option R)) * option (dict (option R))) :=
  match rest with
  | [] => Ok (self, first)
  | u :: r =>
      match self with
      | None => composite_uparams r None first
      | Some s => match u with None => Err TypeError | Some u => composite_uparams r None (Some (dupdate s u)) end
      end
  end.
Definition composite_init (likes : list (option (dict (option R)))) : res (option (dict (option R)) * option (dict (option R))) :=
  match likes with [] => Err IndexError | u :: r => composite_uparams r u u end.
