(** What the theorems on several tables in one run (C81) are stated with. *)
From Coq Require Import Reals String Ascii Arith Bool List.
From Verif Require Import Py Params Basis PostProc Derive ParTable ParTableSpec DerivTab DerivTabSpec TexLabels RepChains TabRun.
Import ListNotations.
Open Scope string_scope.

(** the name of a derived column *)
Definition derived_name (k : string) : Prop := exists p n, In p ["mpsini"; "rhop"; "a"] /\ k = key p n.
(** a parameter name that begins differently from the derived ones *)
Definition plain (p : string) : Prop := exists c r, p = String c r /\ ~ In c ["m"; "r"; "a"; "_"]%char.
(** the parameters of the fit are such names, and suffixes begin with an underscore *)
Definition plain_names (fb : string) (extra names suffixes : list string) : Prop :=
  (forall p, In p (split fb) -> plain p) /\ (forall p, In p extra \/ In p names -> one_word p /\ plain p) /\ (forall s, In s suffixes -> exists j, s = "_" ++ j).

(** two dictionaries agree but for derived columns *)
Definition same_off {A} (d d0 : dict A) : Prop := forall k, ~ derived_name k -> dget d k = dget d0 k.

(** a report: the posterior's parameters in the print basis, labels and samples (report.py:67-87) *)
Record reported (h : heap) (ps : params) (fb : string) (chains : table) (h1 : heap) (q : params) (cols : dict (list R)) (labels : dict string) : Prop := mkReported {
  rp_wf : NoDup (dkeys (ps_items ps));
  rp_num : b_num (ps_basis ps) = ps_num ps;
  rp_init : exists qs, report_init h ps fb chains = Ok (h1, q, cols, qs);
  rp_labels : tex_labels (ps_pp q) (ps_letters q) (dkeys (ps_items q)) = Ok labels }.
(** the samples and labels of a further report: made from the parameters the first left in the posterior, and from the
    chain, in which the first filled columns in *)
Definition further (h1 : heap) (q : params) (fb : string) (chains : table) : res (dict (list R) * dict string) :=
  do t <- fill_missing h1 (ps_items q) chains;
  do (hq, qs) <- report_init h1 q fb t;
  let '(h2, q2, cols) := hq in
  do labels <- tex_labels (ps_pp q2) (ps_letters q2) (dkeys (ps_items q2));
  Ok (cols, labels).
