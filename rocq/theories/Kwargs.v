(** Model of the command line keyword strings: _cast_str_arg and _process_kwargs_str,
    radvel/driver.py:314-340, with Python's int() and float() on texts.

    Texts are ASCII. A float is kept as the decimal number its text denotes, before it is
    rounded to a double. The limit of 4300 digits of int() is not modelled. *)
From Coq Require Import String Ascii ZArith Bool List.
From Verif Require Import Py Mass.
Import ListNotations.
Open Scope string_scope.

(** m * 10^e, infinity, not a number *)
Inductive number := Dec (neg : bool) (m e : Z) | Infinity (neg : bool) | NotANumber.
Inductive value := VInt (z : Z) | VFloat (x : number) | VBool (b : bool) | VStr (s : string).

(** str.split(sep) for a one-character separator *)
Fixpoint split_on (sep : ascii) (s : string) : list string :=
  match s with
  | "" => [""]
  | String c r =>
      if Ascii.eqb c sep then "" :: split_on sep r
      else match split_on sep r with l :: ls => String c l :: ls | [] => [String c ""] end
  end.

(** Py_ISSPACE *)
Definition c_space (c : ascii) : bool := let n := nat_of_ascii c in (Nat.leb 9 n && Nat.leb n 13) || Nat.eqb n 32.
Fixpoint drop_space (s : string) : string :=
  match s with String c r => if c_space c then drop_space r else s | "" => "" end.
Fixpoint drop_space_end (s : string) : string :=
  match s with
  | "" => ""
  | String c r => match drop_space_end r with "" => if c_space c then "" else String c "" | r' => String c r' end
  end.
Definition trim (s : string) : string := drop_space_end (drop_space s).

Definition digit (c : ascii) : option Z :=
  let n := nat_of_ascii c in if Nat.leb 48 n && Nat.leb n 57 then Some (Z.of_nat (n - 48)) else None.
Definition is_digit (c : ascii) : bool := match digit c with Some _ => true | None => false end.
(** an optional sign *)
Definition sign (s : string) : bool * string :=
  match s with
  | String c r => if Ascii.eqb c "-" then (true, r) else if Ascii.eqb c "+" then (false, r) else (false, s)
  | "" => (false, "")
  end.

(** digits of an int, with single underscores between them *)
Fixpoint int_body (acc : Z) (after_digit : bool) (s : string) : option Z :=
  match s with
  | "" => if after_digit then Some acc else None
  | String c r =>
      match digit c with
      | Some d => int_body (10 * acc + d) true r
      | None => if Ascii.eqb c "_" && after_digit then int_body acc false r else None
      end
  end.
(** int(s) *)
Definition int_of (s : string) : option Z :=
  let (neg, r) := sign (trim s) in
  match int_body 0 false r with Some n => Some (if neg then (- n)%Z else n) | None => None end.

(** _Py_string_to_number_with_underscores: underscores stand between digits and are dropped *)
Fixpoint drop_underscores (prev : ascii) (s : string) : option string :=
  match s with
  | "" => if Ascii.eqb prev "_" then None else Some ""
  | String c r =>
      if Ascii.eqb c "_" then (if is_digit prev then drop_underscores c r else None)
      else if Ascii.eqb prev "_" && negb (is_digit c) then None
      else match drop_underscores c r with Some t => Some (String c t) | None => None end
  end.
(** leading digits and the rest *)
Fixpoint span (s : string) : list Z * string :=
  match s with
  | String c r => match digit c with Some d => let (l, t) := span r in (d :: l, t) | None => ([], s) end
  | "" => ([], "")
  end.
Definition value_of (l : list Z) : Z := fold_left (fun a d => 10 * a + d)%Z l 0%Z.
(** an optional fraction *)
Definition fraction (s : string) : list Z * string :=
  match s with String c r => if Ascii.eqb c "." then span r else ([], s) | "" => ([], "") end.
(** an optional exponent, to the end of the text *)
Definition exponent (s : string) : option Z :=
  match s with
  | "" => Some 0%Z
  | String c r =>
      if Ascii.eqb (lower_char c) "e" then
        let (neg, t) := sign r in
        match span t with
        | (d :: l, "") => Some (if neg then (- value_of (d :: l))%Z else value_of (d :: l))
        | _ => None
        end
      else None
  end.
(** PyOS_string_to_double, the whole text being used *)
Definition float_body (s : string) : option number :=
  let (neg, t) := sign s in
  let w := lower t in
  if String.eqb w "inf" || String.eqb w "infinity" then Some (Infinity neg)
  else if String.eqb w "nan" then Some NotANumber
  else
    let (a, r) := span t in
    let (b, r) := fraction r in
    match (a ++ b)%list with
    | [] => None
    | l => match exponent r with Some e => Some (Dec neg (value_of l) (e - Z.of_nat (length b))%Z) | None => None end
    end.
(** float(s) *)
Definition float_of (s : string) : option number :=
  match drop_underscores " " (trim s) with Some t => float_body t | None => None end.

(** _cast_str_arg, driver.py:314-329 *)
Definition cast_str_arg (arg : string) : value :=
  match int_of arg with
  | Some z => VInt z
  | None =>
      match float_of arg with
      | Some x => VFloat x
      | None =>
          if String.eqb (lower arg) "true" then VBool true
          else if String.eqb (lower arg) "false" then VBool false
          else VStr arg
      end
  end.

(** _process_kwargs_str, driver.py:331-340 *)
Definition process_pair (d : dict value) (pair : string) : res (dict value) :=
  match split_on "=" pair with
  | [key; v] => Ok (dset d key (cast_str_arg v))
  | _ => Err ValueError
  end.
Definition process_kwargs_str (s : option string) : res (dict value) :=
  match s with
  | None => Ok []
  | Some s => for_each (split_on " " s) process_pair []
  end.
