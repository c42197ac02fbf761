(** Model of the labels of a comparison (radvel/fitting.py:124-163) and of the command
    ic_compare (radvel/driver.py:398-459) on top of ModelComp.v. *)
From Coq Require Import Reals String Ascii Arith Bool List.
From Verif Require Import Py PyFloat Params Basis Likelihood ModelComp.
Import ListNotations.
Open Scope string_scope.

Fixpoint sdrop (n : nat) (s : string) : string :=
  match n, s with O, _ => s | S m, String _ r => sdrop m r | S _, "" => "" end.
Fixpoint no_underscore (s : string) : string :=
  match s with "" => "" | String c r => if Ascii.eqb c "_" then no_underscore r else String c (no_underscore r) end.

(** the texts of the labels *)
Definition lab_k (x : string) : string := "$K_{" ++ x ++ "}$".
Definition lab_e (x : string) : string := "$e_{" ++ x ++ "}$".
Definition lab_gp (x : string) : string := "GP$_{\rm " ++ no_underscore x ++ "}$".

Section Labels.
  (** [letter s] is planet_letters[int(s)] (an argument: int() or the subscript may raise) *)
  Variables (env : menv) (letter : string -> res string).
  (** one pass of the loop fitting.py:137-163; the state is freepar and jitterchecked *)
  Definition label_step (kp ep : string) (s : pst) (st : list string * bool) (pari : string) : res (list string * bool) :=
    do st <- (if startswith pari kp then do f <- flag env s pari;
                if f then do x <- letter (sdrop (String.length kp) pari); Ok ((fst st ++ [lab_k x])%list, snd st) else Ok st
              else Ok st);
    do st <- (if startswith pari ep then do f <- flag env s pari;
                if f then do x <- letter (sdrop (String.length ep) pari); Ok ((fst st ++ [lab_e x])%list, snd st) else Ok st
              else Ok st);
    do st <- (if String.eqb pari "dvdt" then do f <- flag env s pari; Ok (if f then ((fst st ++ ["$\dot{\gamma}$"])%list, snd st) else st) else Ok st);
    do st <- (if String.eqb pari "curv" then do f <- flag env s pari; Ok (if f then ((fst st ++ ["$\ddot{\gamma}$"])%list, snd st) else st) else Ok st);
    do st <- (if startswith pari "jit" then do f <- flag env s pari;
                Ok (if f && negb (snd st) then ((fst st ++ ["{$\sigma$}"])%list, true) else st)
              else Ok st);
    if startswith pari "gp_amp" then do f <- flag env s pari;
      Ok (if f then ((fst st ++ [lab_gp (sdrop 6 pari)])%list, snd st) else st)
    else Ok st.
  Definition labels (s : pst) : res (list string) :=
    do eps <- get_eparams (e_basis env);
    do cps <- get_circparams (e_basis env);
    do st <- for_each (e_names env) (label_step (List.last cps "") (hd "" eps) s) ([], false);
    Ok (fst st).
End Labels.

(** one entry of the list of results: the labels under 'Free Params' and the other columns.
    [f_model] records the model that was fitted; it is not part of the entry. *)
Record fitted (X : Type) := mkFitted { f_model : pst; f_labels : list string; f_rest : X }.
Arguments mkFitted {X}. Arguments f_model {X}. Arguments f_labels {X}. Arguments f_rest {X}.

(** collections.Counter(a) == collections.Counter(b) *)
Definition counter_eq (a b : list string) : bool :=
  forallb (fun x => Nat.eqb (count_occ string_dec a x) (count_occ string_dec b x)) (a ++ b).

Section Ic.
  Variables (X : Type) (env : menv) (letter : string -> res string).
  (** the fit and the statistics other than the labels *)
  Variable fit : pst -> pst * res X.
  (** fitting.py:84-166 *)
  Definition fit_labelled (s : pst) : pst * res (fitted X) :=
    let '(s', r) := fit s in
    (s', do x <- r; do l <- labels env letter s'; Ok (mkFitted s' l x)).

  (** the loops of driver.py:441-452 *)
  Definition dedup_step (new : list (fitted X)) (d : fitted X) : list (fitted X) :=
    if existsb (fun seen => counter_eq (f_labels d) (f_labels seen)) new then new else (new ++ [d])%list.
  Definition dedup (l : list (fitted X)) : list (fitted X) := fold_left dedup_step l [].

  (** args: -t (None: the default, the text 'trend', which the loop takes apart), --simple,
      mixed and fixjitter (None: no such attribute) *)
  Record icargs := mkArgs { a_type : option (list string); a_simple : bool; a_mixed : option bool; a_fixjitter : option bool }.
  Definition types_of (a : icargs) : list string :=
    match a_type a with Some l => l | None => ["t"; "r"; "e"; "n"; "d"] end.
  Definition choices : list string := ["nplanets"; "e"; "trend"; "jit"; "gp"].

  (** the copy of the posterior: vector and caches, and the flags of post.params, which
      nothing below reads *)
  Record icpost := mkIp { ip_post : pst; ip_flags : dict bool }.
  (** driver.py:428-431; startswith: len(param) >= 3 and param[0:3] == 'jit' *)
  Definition fix_jitter (p : icpost) : icpost :=
    mkIp (ip_post p) (map (fun kv => if startswith (fst kv) "jit" then (fst kv, false) else kv) (ip_flags p)).

  (** driver.py:433-440: ipost, paramlist, statsdictlist and the shared default list of model_comp *)
  Fixpoint type_loop (unmixed : bool) (ts : list string) (p : pst) (pl : list string) (out d : list (fitted X)) :
      pst * list (fitted X) * res (list string * list (fitted X)) :=
    match ts with
    | [] => (p, d, Ok (pl, out))
    | t :: r =>
        if negb (str_in t choices) then (p, d, Err AssertionError)
        else if unmixed then
          let '(p1, d1, o) := model_comp (fitted X) env fit_labelled [t] p d in
          match o with
          | Err e => (p1, d1, Err e)
          | Ok _ => type_loop unmixed r p1 (pl ++ [t])%list (out ++ d1)%list d1
          end
        else type_loop unmixed r p (pl ++ [t])%list out d
    end.

  (** driver.py:416-459: the list that is saved, and the default list afterwards *)
  Definition ic_compare (a : icargs) (post : icpost) (d : list (fitted X)) : list (fitted X) * res (list (fitted X)) :=
    if a_simple a then
      let '(_, d1, o) := model_comp (fitted X) env fit_labelled [] (ip_post post) d in (d1, do _ <- o; Ok d1)
    else
      let post := match a_fixjitter a with Some true => fix_jitter post | _ => post end in
      let unmixed := match a_mixed a with Some false => true | _ => false end in
      let '(p1, d1, o) := type_loop unmixed (types_of a) (ip_post post) [] [] d in
      match o with
      | Err e => (d1, Err e)
      | Ok (pl, out) =>
          let out := if unmixed then dedup out else out in
          if unmixed then (d1, Ok out)
          else let '(_, d2, o2) := model_comp (fitted X) env fit_labelled pl p1 d1 in (d2, do _ <- o2; Ok (out ++ d2)%list)
      end.
End Ic.
