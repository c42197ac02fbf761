(** Python values used by the model: exceptions as results, ordered
    dictionaries and floating point numbers extended with inf/nan.
    No radvel code here; this file models the parts of the Python language
    and of numpy that the other files need. *)
From Coq Require Import Reals List String ZArith Bool.
Import ListNotations.

(** Exceptions that the modelled code can raise. *)
Inductive exn :=
| KeyError (k : string)
| ValueError
| TypeError
| IndexError
| AttributeError
| AssertionError
| ZeroDivisionError
| FileExistsError
| FileNotFoundError
| RuntimeError
| ExitProcess        (* C's exit(-1) *)
| LinAlgError
| UnboundLocalError
| OverflowError
| PlainException      (* raise Exception(...) *)
| OutOfFuel.         (* not a Python exception: the model's fuel ran out *)

(** Result of a Python call. *)
Inductive res (A : Type) :=
| Ok (a : A)
| Err (e : exn).
Arguments Ok {A} a.
Arguments Err {A} e.

Definition bind {A B} (x : res A) (f : A -> res B) : res B :=
  match x with Ok a => f a | Err e => Err e end.

Notation "'do' x <- m ; k" := (bind m (fun x => k))
  (at level 200, x pattern, m at level 100, k at level 200).

Definition is_ok {A} (x : res A) : Prop := exists a, x = Ok a.

(** [for x in l: s = f s x], stopping at the first exception. *)
Fixpoint for_each {A S} (l : list A) (f : S -> A -> res S) (s : S) : res S :=
  match l with
  | [] => Ok s
  | x :: r => do s' <- f s x; for_each r f s'
  end.

(** [[f x for x in l]] where [f] can raise. *)
Fixpoint map_res {A B} (f : A -> res B) (l : list A) : res (list B) :=
  match l with
  | [] => Ok []
  | x :: r => do y <- f x; do ys <- map_res f r; Ok (y :: ys)
  end.

(** ** Ordered dictionaries with string keys (Python [dict]/[OrderedDict]) *)
Definition dict (V : Type) := list (string * V).

Fixpoint dget {V} (d : dict V) (k : string) : option V :=
  match d with
  | [] => None
  | (k', v) :: r => if String.eqb k k' then Some v else dget r k
  end.

(** [d[k]] *)
Definition dget_res {V} (d : dict V) (k : string) : res V :=
  match dget d k with Some v => Ok v | None => Err (KeyError k) end.

(** [d[k] = v]: keeps the position of an existing key, appends otherwise. *)
Fixpoint dset {V} (d : dict V) (k : string) (v : V) : dict V :=
  match d with
  | [] => [(k, v)]
  | (k', v') :: r => if String.eqb k k' then (k', v) :: r else (k', v') :: dset r k v
  end.

(** [d.update(d2)] *)
Definition dupdate {V} (d d2 : dict V) : dict V :=
  fold_left (fun acc kv => dset acc (fst kv) (snd kv)) d2 d.

(** removal of a key *)
Fixpoint dremove {V} (d : dict V) (k : string) : dict V :=
  match d with
  | [] => []
  | (k', v') :: r => if String.eqb k k' then r else (k', v') :: dremove r k
  end.

(** [del d[k]] *)
Definition ddel {V} (d : dict V) (k : string) : res (dict V) :=
  match dget d k with Some _ => Ok (dremove d k) | None => Err (KeyError k) end.

Definition dkeys {V} (d : dict V) : list string := map fst d.

Definition dmem {V} (d : dict V) (k : string) : bool :=
  match dget d k with Some _ => true | None => false end.

Definition wf_dict {V} (d : dict V) : Prop := NoDup (dkeys d).

(** ** Extended floats: where the code branches on inf/nan *)
Inductive ext :=
| Fin (r : R)
| PInf
| NInf
| NaN.

(** float addition *)
Definition ext_add (a b : ext) : ext :=
  match a, b with
  | Fin x, Fin y => Fin (x + y)
  | NaN, _ | _, NaN => NaN
  | PInf, NInf | NInf, PInf => NaN
  | PInf, _ | _, PInf => PInf
  | NInf, _ | _, NInf => NInf
  end.

(** float negation *)
Definition ext_opp (a : ext) : ext :=
  match a with Fin x => Fin (- x) | PInf => NInf | NInf => PInf | NaN => NaN end.

(** [np.isfinite] *)
Definition isfinite (a : ext) : bool := match a with Fin _ => true | _ => false end.

(** boolean comparisons of reals (Python [<], [<=], ... on floats) *)
Definition rltb (a b : R) : bool := if Rlt_dec a b then true else false.
Definition rleb (a b : R) : bool := if Rle_dec a b then true else false.
Definition reqb (a b : R) : bool := if Req_EM_T a b then true else false.
