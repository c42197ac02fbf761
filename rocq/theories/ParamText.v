(** Model of Parameter.__repr__, radvel/model.py:62-66, and of __repr__ of the kernels, radvel/gp.py:111-114, 194-200,
    283-293, 441-451.  [show] is str() of a number, any function. *)
From Coq Require Import Reals String Ascii Bool List.
From Verif Require Import Py PyFloat Params Gp.
Import ListNotations.
Open Scope string_scope.

Section Text.
  Variable show : ext -> string.
  Definition show_opt (x : option R) : string := match x with Some v => show (Fin v) | None => "None" end.
  (** model.py:62-66; [linear] is not shown *)
  Definition vary_text (v : varyv) : string := match v with VBool true => "True" | VBool false => "False" | VEmpty => "" end.
  Definition param_text (p : param) : string :=
    "Parameter object: value = " ++ show_opt (p_value p) ++ ", vary = " ++ vary_text (p_vary p) ++ ", mcmc scale = " ++ show_opt (p_scale p).

  (** gp.py:111-114, 194-200, 283-293 *)
  Definition kernel_text (kind : kernel) (h : dict (option R)) : res string :=
    match kind with
    | SqExp =>
        do length <- dget_res h "gp_length"; do amp <- dget_res h "gp_amp";
        Ok ("SqExp Kernel with length: " ++ show_opt length ++ ", amp: " ++ show_opt amp)
    | Per =>
        do length <- dget_res h "gp_length"; do amp <- dget_res h "gp_amp"; do per <- dget_res h "gp_per";
        Ok ("Per Kernel with length: " ++ show_opt length ++ ", amp: " ++ show_opt amp ++ ", per: " ++ show_opt per)
    | QuasiPer =>
        do perlength <- dget_res h "gp_perlength"; do amp <- dget_res h "gp_amp"; do per <- dget_res h "gp_per"; do explength <- dget_res h "gp_explength";
        Ok ("QuasiPer Kernel with amp: " ++ show_opt amp ++ ", per length: " ++ show_opt perlength ++ ", per: " ++ show_opt per ++ ", exp length: " ++ show_opt explength)
    end.
  (** gp.py:441-451 *)
  Definition celerite_text (h : dict (option R)) : res string :=
    do b <- dget_res h "gp_B"; do c <- dget_res h "gp_C"; do l <- dget_res h "gp_L"; do prot <- dget_res h "gp_Prot";
    Ok ("Celerite Kernel with B = " ++ show_opt b ++ ", C = " ++ show_opt c ++ ", L = " ++ show_opt l ++ ", Prot = " ++ show_opt prot ++ ".").
End Text.
