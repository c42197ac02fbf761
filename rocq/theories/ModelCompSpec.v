(** What the models of a comparison are (C40), stated without the helpers of model_comp. *)
From Coq Require Import Reals String Arith Bool Sorted List.
From Verif Require Import Py PyFloat Params ParamsProofs ParamsSpec ModelComp.
Import ListNotations.
Open Scope string_scope.

(** row [i] is free *)
Definition free_row (s : pst) (i : nat) : Prop := exists r, nth_error (m_rows s) i = Some r /\ m_vary r = true.
Definition free_key (env : menv) (s : pst) (k : string) : Prop := exists i, dget (e_idx env) k = Some i /\ free_row s i.

(** both caches list exactly the free rows, in order *)
Definition fresh (s : pst) : Prop :=
  exists l, m_cp s = Some l /\ m_cl s = Some l /\ StronglySorted lt l /\ forall i, In i l <-> free_row s i.

(** [c] differs from [s] exactly in the rows of the keys satisfying [K], where value
    and flag are as given by [g] *)
Definition changed (env : menv) (K : string -> Prop) (g : string -> mrow -> mrow) (s c : pst) : Prop :=
  length (m_rows c) = length (m_rows s) /\
  (forall k i r, K k -> dget (e_idx env) k = Some i -> nth_error (m_rows s) i = Some r -> nth_error (m_rows c) i = Some (g k r)) /\
  (forall i, (forall k, K k -> dget (e_idx env) k <> Some i) -> nth_error (m_rows c) i = nth_error (m_rows s) i).

(** the five parameter names of the basis; the two for the eccentricity come first *)
Record basis_names (b : string) (ep cp : list string) : Prop := {
  bn_fit : exists names, In (b, names) FIT_BASES /\ forall p, In p names <-> In p (ep ++ cp)%list;
  bn_e : forall p, In p ep <-> In p (ep ++ cp)%list /\ In p ["e"; "w"; "se"; "secosw"; "sesinw"; "ecosw"; "esinw"] }.

Definition planet_key (names : list string) (G : list nat) (k : string) : Prop := exists n p, In n G /\ In p names /\ k = key p n.

(** planets removed: semi-amplitude zero, all five parameters fixed *)
Definition no_planets (env : menv) (names : list string) (G : list nat) (s c : pst) : Prop :=
  (exists g, changed env (planet_key names G) g s c /\
    forall n p r, In p names -> g (key p n) r = mkM (if String.eqb p "k" then Fin 0 else if String.eqb p "logk" then NInf else m_val r) false) /\ fresh c.
(** planets on circular orbits *)
Definition circular (env : menv) (ep : list string) (G : list nat) (s c : pst) : Prop :=
  changed env (planet_key ep G) (fun _ _ => mkM (Fin 0) false) s c /\ fresh c.
(** jitter terms that were free are fixed at 1e-6 *)
Definition no_jitter (env : menv) (s c : pst) : Prop :=
  changed env (fun k => In k (e_names env) /\ String.prefix "jit" k = true /\ free_key env s k) (fun _ _ => mkM (Fin (/ 10 ^ 6)%R) false) s c /\ fresh c.
(** trend terms in [zeros] start at zero, those in [fixed] are fixed there *)
Definition trend_at (env : menv) (zeros fixed : list string) (s c : pst) : Prop :=
  (exists g, changed env (fun k => In k zeros) g s c /\
    forall k r, g k r = mkM (Fin 0) (if in_dec string_dec k fixed then false else m_vary r)) /\ fresh c.
Definition unchanged (s c : pst) : Prop := m_rows c = m_rows s /\ fresh c.

(** non-empty sets of planets, as increasing lists *)
Definition planet_set (num : nat) (G : list nat) : Prop := G <> [] /\ StronglySorted lt G /\ forall n, In n G -> (1 <= n <= num)%nat.
(** every planet of the set has a free parameter among [names] *)
Definition set_free (env : menv) (names : list string) (s : pst) (G : list nat) : Prop :=
  forall n, In n G -> exists p, In p names /\ free_key env s (key p n).
(** [Gs] lists each such set once *)
Definition free_sets (env : menv) (names : list string) (s : pst) (Gs : list (list nat)) : Prop :=
  NoDup Gs /\ forall G, In G Gs <-> planet_set (e_num env) G /\ set_free env names s G.

(** the models one comparison type makes of a model, in the order they are fitted *)
Inductive stage (env : menv) (ep cp : list string) (s : pst) : string -> list pst -> Prop :=
| st_jit_free c c' k : In k (e_names env) -> String.prefix "jit" k = true -> free_key env s k ->
    no_jitter env s c -> unchanged s c' -> stage env ep cp s "jit" [c; c']
| st_jit_fixed c' : (forall k, In k (e_names env) -> String.prefix "jit" k = true -> ~ free_key env s k) -> unchanged s c' ->
    stage env ep cp s "jit" [c']
| st_trend_both c1 c2 c3 : free_key env s "curv" -> free_key env s "dvdt" ->
    trend_at env ["curv"] [] s c1 -> trend_at env ["curv"; "dvdt"] ["curv"] s c2 -> trend_at env ["curv"; "dvdt"] ["curv"; "dvdt"] s c3 ->
    stage env ep cp s "trend" [c1; c2; c3]
| st_trend_curv c1 c2 : free_key env s "curv" -> ~ free_key env s "dvdt" ->
    trend_at env ["curv"] [] s c1 -> trend_at env ["curv"] ["curv"] s c2 -> stage env ep cp s "trend" [c1; c2]
| st_trend_dvdt c1 c2 : ~ free_key env s "curv" -> free_key env s "dvdt" ->
    trend_at env ["dvdt"] [] s c1 -> trend_at env ["dvdt"] ["dvdt"] s c2 -> stage env ep cp s "trend" [c1; c2]
| st_trend_none c : ~ free_key env s "curv" -> ~ free_key env s "dvdt" -> unchanged s c -> stage env ep cp s "trend" [c]
| st_nplanets Gs cs c : free_sets env (ep ++ cp) s Gs -> Forall2 (fun G c => no_planets env (ep ++ cp) G s c) Gs cs -> unchanged s c ->
    stage env ep cp s "nplanets" (cs ++ [c])
| st_e Gs cs c : free_sets env ep s Gs -> Forall2 (fun G c => circular env ep G s c) Gs cs -> unchanged s c ->
    stage env ep cp s "e" (cs ++ [c]).

(** comparisons are combined in this order *)
Definition first_of (params : list string) (x : string) : Prop :=
  In x params /\
  (x = "jit" \/ x = "trend" /\ ~ In "jit" params \/ x = "nplanets" /\ ~ In "jit" params /\ ~ In "trend" params \/
   x = "e" /\ ~ In "jit" params /\ ~ In "trend" params /\ ~ In "nplanets" params).

(** all models of a comparison *)
Inductive models (env : menv) (ep cp : list string) : list string -> pst -> list pst -> Prop :=
| ms_nil s : models env ep cp [] s [s]
| ms_stage params x s cs mss : first_of params x -> stage env ep cp s x cs ->
    Forall2 (fun c ms => models env ep cp (filter (fun p => if string_dec p x then false else true) params) c ms) cs mss ->
    models env ep cp params s (concat mss).

(** a posterior whose indices fit its rows *)
Record env_ok (env : menv) (ep cp : list string) (n : nat) : Prop := {
  eo_ep : get_eparams (e_basis env) = Ok ep;
  eo_cp : get_circparams (e_basis env) = Ok cp;
  eo_planet : forall m p, (1 <= m <= e_num env)%nat -> In p (ep ++ cp)%list -> exists i, dget (e_idx env) (key p m) = Some i /\ (i < n)%nat;
  eo_trend : forall k, In k ["curv"; "dvdt"] -> exists i, dget (e_idx env) k = Some i /\ (i < n)%nat;
  eo_jit : forall k, In k (e_names env) -> String.prefix "jit" k = true -> exists i, dget (e_idx env) k = Some i /\ (i < n)%nat;
  eo_names : NoDup (e_names env);
  (** keys in use have rows of their own *)
  eo_inj : forall k k' i, In k (e_names env) \/ planet_key (ep ++ cp) (seq 1 (e_num env)) k \/ In k ["curv"; "dvdt"] ->
    In k' (e_names env) \/ planet_key (ep ++ cp) (seq 1 (e_num env)) k' \/ In k' ["curv"; "dvdt"] ->
    dget (e_idx env) k = Some i -> dget (e_idx env) k' = Some i -> k = k' }.
