(** Vocabulary for C55, independent of the model of initialize_posterior. *)
From Coq Require Import Reals String List.
From Verif Require Import Py Params Likelihood Setup.
Import ListNotations.
Open Scope string_scope.

(** the rows of one instrument, in the order of the file *)
Inductive own_rows (inst : string) : list obs -> list obs -> Prop :=
| own_nil : own_rows inst [] []
| own_take : forall o l r, o_tel o = inst -> own_rows inst l r -> own_rows inst (o :: l) (o :: r)
| own_skip : forall o l r, o_tel o <> inst -> own_rows inst l r -> own_rows inst (o :: l) r.

(** (time, velocity, error) of each measurement *)
Definition triples (rows : list obs) : list (R * R * R) := map (fun o => (o_time o, o_vel o, o_err o)) rows.
Definition measured (l : rvlike) : list (R * R * R) := combine (combine (l_x l) (l_y l)) (l_yerr l).

Definition logjit_key (k : string) : Prop := exists s, k = "logjit" ++ s.
Definition contains (sub s : string) : Prop := exists a b, s = a ++ sub ++ b.

(** a setup file whose parameters [d] (objects in [h]) keep all entries of [d0] (objects in [h0]) *)
Definition keeps_params (h0 : heap) (d0 : dict nat) (h : heap) (d : dict nat) : Prop :=
  forall k p, get_param h0 d0 k = Some p -> dget d k = dget d0 k /\ get_param h d k = Some p.

From Verif Require Import ParamsSpec.
(** a well-formed Parameters object for one of the fitting bases *)
Record params_ok (h : heap) (ps : params) : Prop := {
  pk_layout : exists names, layout (ps_num ps) (b_name (ps_basis ps)) names (dkeys (ps_items ps));
  pk_objects : objects_ok h (ps_items ps) }.

(** the hyper-parameters of each kernel, by the beginning of their names *)
Definition HYPER : list (string * list string) :=
  [("SqExp", ["gp_length"; "gp_amp"]); ("Per", ["gp_length"; "gp_amp"; "gp_per"]);
   ("QuasiPer", ["gp_perlength"; "gp_amp"; "gp_per"; "gp_explength"]); ("Celerite", ["gp_B"; "gp_C"; "gp_L"; "gp_Prot"])].
(** [names] has one for each *)
Definition hyper_given (kernel : string) (names : list string) : Prop :=
  exists pres, In (kernel, pres) HYPER /\ forall p, In p pres -> exists s, In (p ++ s) names.
