(** Float arithmetic with inf and nan, where the code can produce them.
    Signed zeros are not modelled: zero is +0. *)
From Coq Require Import Reals List Bool.
From Verif Require Import Py.
Import ListNotations.
Open Scope R_scope.

Definition ext_sub (a b : ext) : ext := ext_add a (ext_opp b).

(** infinity with the sign of [s] *)
Definition inf_of (s : R) : ext := if rltb 0 s then PInf else if rltb s 0 then NInf else NaN.

(** [a * b] *)
Definition ext_mul (a b : ext) : ext :=
  match a, b with
  | NaN, _ | _, NaN => NaN
  | Fin x, Fin y => Fin (x * y)
  | PInf, Fin y | Fin y, PInf => inf_of y
  | NInf, Fin y | Fin y, NInf => inf_of (- y)
  | PInf, PInf | NInf, NInf => PInf
  | PInf, NInf | NInf, PInf => NInf
  end.

(** numpy's [a / b] (no exception, a warning at most) *)
Definition ext_div (a b : ext) : ext :=
  match a, b with
  | NaN, _ | _, NaN => NaN
  | Fin x, Fin y => if reqb y 0 then inf_of x else Fin (x / y)
  | Fin _, _ => Fin 0
  | PInf, Fin y => if rltb y 0 then NInf else PInf
  | NInf, Fin y => if rltb y 0 then PInf else NInf
  | _, _ => NaN
  end.

(** [np.log] *)
Definition ext_log (a : ext) : ext :=
  match a with
  | Fin x => if rltb 0 x then Fin (ln x) else if reqb x 0 then NInf else NaN
  | PInf => PInf
  | _ => NaN
  end.

(** [np.sqrt] *)
Definition ext_sqrt (a : ext) : ext :=
  match a with
  | Fin x => if rltb x 0 then NaN else Fin (sqrt x)
  | PInf => PInf
  | _ => NaN
  end.

(** [np.sum] *)
Definition ext_sum (l : list ext) : ext := fold_left ext_add l (Fin 0).

(** sum of reals *)
Definition rsum (l : list R) : R := fold_right Rplus 0 l.

(** [a < b] on floats; comparisons with nan are False *)
Definition ext_ltb (a b : ext) : bool :=
  match a, b with
  | NaN, _ | _, NaN => false
  | Fin x, Fin y => rltb x y
  | NInf, NInf | PInf, PInf => false
  | NInf, _ | _, PInf => true
  | _, _ => false
  end.
