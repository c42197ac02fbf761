(** What the theorems on the points of a panel (C75) are stated with. *)
From Coq Require Import Reals String Arith Bool List.
From Verif Require Import Py FastBinSpec RvTabSpec.
Import ListNotations.
Open Scope string_scope.

(** the instruments with a format of their own in plot/__init__.py: name in the legend, colour *)
Definition KNOWN : list (string * (string * string)) :=
  (map (fun n => (n, ("HIRES", "k"))) ["j"; "hires_rj"; "hires"; "HIRES_RJ"; "HIRES"] ++
   map (fun n => (n, ("HIRES pre 2004", "k"))) ["k"; "hires_rk"; "HIRES_RK"] ++
   map (fun n => (n, ("APF", "g"))) ["a"; "apf"; "APF"] ++
   map (fun n => (n, ("PFS", "magenta"))) ["pfs"; "PFS"] ++
   map (fun n => (n, ("HARPS", "firebrick"))) ["h"; "harps"; "HARPS"] ++
   map (fun n => (n, ("HARPS-N", "firebrick"))) ["harps-n"; "HARPS-N"] ++
   map (fun n => (n, ("LICK", "g"))) ["l"; "lick"; "LICK"])%list.
Definition known (t name colour : string) : Prop := In (t, (name, colour)) KNOWN.
Definition unknown (t : string) : Prop := forall name colour, ~ known t name colour.

(** the colours handed out *)
Definition COLOURS : list string := ["orange"; "purple"; "magenta"; "pink"; "green"; "grey"; "red"; "blue"; "yellow"].

(** the user wrote [v] for option [o] of instrument [t] *)
Definition wrote (telfmts : dict (dict string)) (t o v : string) : Prop := exists f, dget telfmts t = Some f /\ dget f o = Some v.
Definition wrote_none (telfmts : dict (dict string)) (t o : string) : Prop := forall v, ~ wrote telfmts t o v.
Definition no_format (telfmts : dict (dict string)) (t : string) : Prop := ~ In t (dkeys telfmts).

(** nobody has chosen a colour for [t]: neither the user, nor, where the user says nothing, the program *)
Definition uncoloured (telfmts : dict (dict string)) (t : string) : Prop :=
  wrote_none telfmts t "color" /\ (no_format telfmts t -> unknown t).

(** the name in the legend *)
Definition legend_name (telfmts : dict (dict string)) (t s : string) : Prop :=
  wrote telfmts t "label" s \/
  wrote_none telfmts t "label" /\ ((exists c, known t s c) \/ unknown t /\ s = t).

(** the members of [l] at the positions where [tel] is [t] *)
Definition of_tel {A} (tel : list string) (t : string) (l b : list A) : Prop :=
  length l = length tel /\ exists q, picks (fun p => fst p = t) (combine tel l) q /\ b = map snd q.

(** the instruments [ts] that need a colour are at most as many as there are colours *)
Definition colours_suffice (telfmts : dict (dict string)) (tel : list string) : Prop :=
  exists ts, NoDup ts /\ (forall t, In t tel -> uncoloured telfmts t -> In t ts) /\ (length ts <= length COLOURS)%nat.

(** the residual scatter in the legend *)
Definition rms_note (s : string) (r : R) : Prop :=
  (r = 0%R -> s = "") /\
  (r <> 0%R -> exists n, s = String (Ascii.ascii_of_nat 10) "RMS=" ++ n ++ " m s$^{\mathregular{-1}}$" /\ shows 2 n r).

(** what is passed to a panel: formats name every option once, a scatter is given for every instrument or for none *)
Definition formats_wf (fm : dict (dict string)) : Prop := forall t f, dget fm t = Some f -> wf_dict f.
Definition rms_given (rv : dict R) (l : list string) : Prop := rv = [] \/ forall t, In t l -> In t (dkeys rv).
(** every format the user wrote for one of the instruments has a colour *)
Definition settled (fm : dict (dict string)) (tel : list string) : Prop := forall t f, In t tel -> dget fm t = Some f -> exists c, dget f "color" = Some c.
