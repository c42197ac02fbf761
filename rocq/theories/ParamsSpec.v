(** Specification vocabulary for C08-C16: the fitting bases and what a complete
    parameter set is.  Independent of the code's conversion functions. *)
From Coq Require Import Reals String Arith List.
From Verif Require Import Py Params ParamsProofs.
Import ListNotations.
Open Scope string_scope.

(** The nine bases a model can be fitted in (BASIS_NAMES without the print
    basis), each with its five parameters in row order. *)
Definition FIT_BASES : list (string * list string) :=
  [ ("per tp e w k", ["per"; "tp"; "e"; "w"; "k"]);
    ("per tc secosw sesinw logk", ["per"; "tc"; "secosw"; "sesinw"; "logk"]);
    ("per tc secosw sesinw k", ["per"; "tc"; "secosw"; "sesinw"; "k"]);
    ("per tc ecosw esinw k", ["per"; "tc"; "ecosw"; "esinw"; "k"]);
    ("per tc e w k", ["per"; "tc"; "e"; "w"; "k"]);
    ("logper tc secosw sesinw k", ["logper"; "tc"; "secosw"; "sesinw"; "k"]);
    ("logper tc secosw sesinw logk", ["logper"; "tc"; "secosw"; "sesinw"; "logk"]);
    ("per tc se w k", ["per"; "tc"; "se"; "w"; "k"]);
    ("logper tp e w logk", ["logper"; "tp"; "e"; "w"; "logk"]) ].

(** A key set for [num] planets in basis [b]: every planet has exactly the
    five parameters of [b]; any other keys (instruments, trend, GP, user keys)
    may be present, in any order. *)
Record layout (num : nat) (b : string) (names : list string) (keys : list string) : Prop := {
  l_fit : In (b, names) FIT_BASES;
  l_nodup : NoDup keys;
  l_has : forall n p, (1 <= n <= num)%nat -> In p names -> In (key p n) keys;
  l_only : forall n p, (1 <= n <= num)%nat -> In p PNAMES -> In (key p n) keys -> In p names }.

(** Parameter objects of a dictionary: all allocated, no two keys share one. *)
Record objects_ok (h : heap) (d : dict nat) : Prop := {
  o_wf : NoDup (dkeys d);
  o_alloc : forall k l, dget d k = Some l -> (l < length h)%nat;
  o_noshare : forall k k' l, dget d k = Some l -> dget d k' = Some l -> k = k' }.

(** ** Meaning of the orbital parameters *)
From Verif Require Import Kepler KeplerSpec.

(** orbital elements: period, periastron time, eccentricity, argument of
    periastron, semi-amplitude *)
Record elements := mkEl { el_per : R; el_tp : R; el_e : R; el_w : R; el_k : R }.

Definition in_domain (el : elements) : Prop :=
  (0 < el_per el /\ 0 < el_k el /\ 0 <= el_e el < 1)%R.

(** the documented meaning of each parameter name (radvel docs, "tc" being the
    time of inferior conjunction; see C06) *)
Definition meaning (el : elements) (p : string) : R :=
  let '(mkEl per tp e w k) := el in
  (if String.eqb p "per" then per
   else if String.eqb p "logper" then ln per
   else if String.eqb p "tp" then tp
   else if String.eqb p "tc" then timeperi_to_timetrans tp per e w false
   else if String.eqb p "e" then e
   else if String.eqb p "se" then sqrt e
   else if String.eqb p "w" then w
   else if String.eqb p "secosw" then sqrt e * cos w
   else if String.eqb p "sesinw" then sqrt e * sin w
   else if String.eqb p "ecosw" then e * cos w
   else if String.eqb p "esinw" then e * sin w
   else if String.eqb p "k" then k
   else if String.eqb p "logk" then ln k
   else 0)%R.

(** the velocity curve of two sets of elements is the same *)
Definition same_orbit (a b : elements) : Prop :=
  el_per a = el_per b /\ el_e a = el_e b /\ el_k a = el_k b /\
  forall t v, is_rv (el_per a) (el_tp a) (el_e a) (el_w a) (el_k a) t v <->
              is_rv (el_per b) (el_tp b) (el_e b) (el_w b) (el_k b) t v.

(** identical elements, the argument of periastron being an angle *)
Definition same_elements (a b : elements) : Prop :=
  el_per a = el_per b /\ el_tp a = el_tp b /\ el_e a = el_e b /\ el_k a = el_k b /\
  cos (el_w a) = cos (el_w b) /\ sin (el_w a) = sin (el_w b).

(** ** Parameter sets ready for conversion *)

(** [ps] is a parameter set in basis [b] with all its orbital parameters
    present (other keys, even of other parametrisations, may be there too) and
    every entry refers to an allocated Parameter object. *)
Record params_ok (h : heap) (ps : params) (b : string) (names : list string) : Prop := {
  po_fit : In (b, names) FIT_BASES;
  po_name : b_name (ps_basis ps) = b;
  po_num : b_num (ps_basis ps) = ps_num ps;
  po_locs : forall k l, In (k, l) (ps_items ps) -> (l < length h)%nat;
  po_wf : NoDup (dkeys (ps_items ps));
  po_has : forall n p, (1 <= n <= ps_num ps)%nat -> In p names -> In (key p n) (dkeys (ps_items ps)) }.

(** value of an entry *)
Definition value_at (h : heap) (ps : params) (k : string) : option R :=
  match get_param h (ps_items ps) k with Some q => p_value q | None => None end.

(** planet [n] of [ps] has values [val] for the parameters [names] *)
Definition holds (h : heap) (ps : params) (names : list string) (n : nat) (val : string -> R) : Prop :=
  forall p, In p names -> value_at h ps (key p n) = Some (val p).

(** [k] is not an orbital parameter of planets 1..num *)
Definition non_orbital (num : nat) (k : string) : Prop :=
  forall n p, (1 <= n <= num)%nat -> In p PNAMES -> k <> key p n.

(** ** Which conversions give a set that a model can be built from *)

(** no orbital parameter of another parametrisation is present *)
Definition strict (ps : params) (names : list string) : Prop :=
  forall n p, (1 <= n <= ps_num ps)%nat -> In p PNAMES -> In (key p n) (dkeys (ps_items ps)) -> In p names.

(** every parameter's vary flag is a boolean *)
Definition flags_ok (h : heap) (ps : params) : Prop :=
  forall k, In k (dkeys (ps_items ps)) ->
    exists q b, get_param h (ps_items ps) k = Some q /\ p_vary q = VBool b.

(** ordered pairs (from, to) for which conversion leaves a usable set *)
Definition CONVERTIBLE : list (string * string) :=
  let S := "per tp e w k" in
  let SL := "per tc secosw sesinw logk" in
  let SK := "per tc secosw sesinw k" in
  let EC := "per tc ecosw esinw k" in
  let EW := "per tc e w k" in
  let LK := "logper tc secosw sesinw k" in
  let LL := "logper tc secosw sesinw logk" in
  let SE := "per tc se w k" in
  let LT := "logper tp e w logk" in
  [ (S, S); (S, SL); (S, SK); (S, EC); (S, EW); (S, LK); (S, LL); (S, SE);
    (SL, SL); (SL, LL);
    (SK, SL); (SK, SK); (SK, EC); (SK, LK); (SK, LL);
    (EC, SL); (EC, SK); (EC, EC); (EC, LK); (EC, LL);
    (EW, SL); (EW, SK); (EW, EC); (EW, EW); (EW, LK); (EW, LL); (EW, SE);
    (LK, LK); (LK, LL);
    (LL, LL);
    (SE, SL); (SE, SK); (SE, EC); (SE, LK); (SE, LL); (SE, SE);
    (LT, LL) ].

(** pairs whose result builds a model, but with the transit time in the row of
    the periastron time *)
Definition WRONG_TP : list (string * string) :=
  [ ("per tp e w k", "logper tp e w logk"); ("logper tp e w logk", "logper tp e w logk") ].

(** [el'] is [el] as far as a basis with parameters [names] can tell: identical
    when the basis contains omega itself, omega modulo 2 pi when the orbit is
    eccentric, and the same velocity curve when it is circular (unless the
    transit falls at apastron, where tan is infinite). *)
Record recovered (names : list string) (el el' : elements) : Prop := {
  rec_shape : el_per el' = el_per el /\ el_e el' = el_e el /\ el_k el' = el_k el;
  rec_w : In "w" names -> el' = el;
  rec_ecc : (0 < el_e el)%R -> same_elements el' el;
  rec_orbit : (0 < el_e el \/ cos ((PI / 2 - el_w el) / 2) <> 0)%R -> same_orbit el el' }.

(** The values of a set are in the range of its basis: only se has one. *)
Definition values_in_range (names : list string) (val : string -> R) : Prop :=
  In "se" names -> (0 <= val "se")%R.

(** ** A concrete set used in the examples: two planets, an instrument, a
    trend parameter *)
Definition ex_keys (names : list string) : list string :=
  (map (fun p => key p 1) names ++ ["gamma_j"] ++ map (fun p => key p 2) names ++ ["dvdt"; "jit_j"])%list.
Definition ex_ps (b : string) (names : list string) : params :=
  mkParams (combine (ex_keys names) (seq 0 13)) (basis_init b 2) 2 names None.
Definition ex_heap (names : list string) (val : nat -> string -> R) : heap :=
  (map (fun p => mkParam (Some (val 1%nat p)) (VBool true) None false) names ++
   [mkParam (Some 3%R) (VBool true) None true] ++
   map (fun p => mkParam (Some (val 2%nat p)) (VBool false) (Some 1%R) false) names ++
   [mkParam (Some 5%R) (VBool true) None false; mkParam (Some 7%R) (VBool false) None false])%list.

(** value of a trend parameter: zero when the set does not have it *)
Definition trend_value (h : heap) (ps : params) (k : string) (x : R) : Prop :=
  match get_param h (ps_items ps) k with Some q => p_value q = Some x | None => x = 0%R end.

(** sum of the i-th samples of some curves *)
Definition sum_samples (i : nat) (curves : list (list R)) : R :=
  fold_right Rplus 0%R (map (fun c => nth i c 0%R) curves).

(** elements of the two planets of the examples *)
Definition ex_E (n : nat) : elements :=
  (if Nat.eqb n 1 then mkEl 10 3 (1 / 5) 1 40 else mkEl 300 7 (1 / 10) 2 5)%R.
Definition ex_h (names : list string) : heap := ex_heap names (fun n => meaning (ex_E n)).
