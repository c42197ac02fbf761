(** What a command line says, independently of the parser: a command, and options each with its values. *)
From Coq Require Import Reals String Ascii ZArith Bool List.
From Verif Require Import Py ReportFileSpec Cli.
Import ListNotations.
Open Scope string_scope.

Definition called_by (c : command) : string :=
  match c with Fit => "fit" | Plot => "plot" | Mcmc => "mcmc" | Ns => "ns" | Derive => "derive" | Ic => "ic" | Table => "table" | Report => "report" end.
(** the options of a command by name *)
Definition option_of (c : command) (n : string) (a : act) : Prop := In a (acts_of c) /\ In n (a_names a).
(** a word that cannot be taken for an option *)
Definition word (w : string) : Prop := match w with String c _ => c <> "-"%char | "" => True end.

(** dashes to underscores *)
Fixpoint under (s : string) : string := match s with "" => "" | String c r => String (if Ascii.eqb c "-" then "_"%char else c) (under r) end.
(** options whose arguments have another name *)
Definition renamed : list (string * string) := [("setup", "setupfn"); ("nensembles", "ensembles"); ("un-mixed", "mixed"); ("no-fixjitter", "fixjitter")].

Section Lines.
  Variables (O : Type) (empty : O) (to_int : string -> option Z) (to_float : string -> option ext) (to_obj : string -> res O).
  Notation value := (value O).
  (** the values a text may have under an option of type [t] *)
  Inductive reads : ty -> string -> value -> Prop :=
  | RStr s : reads TStr s (VStr s)
  | RInt s z : to_int s = Some z -> reads TInt s (VInt z)
  | RFloat s x : to_float s = Some x -> reads TFloat s (VFloat x)
  | RBool s : s <> "" -> reads TBool s (VBool true)
  | RNoBool : reads TBool "" (VBool false)
  | REval s o : to_obj s = Ok o -> reads TEval s (VObj o).
  Definition allowed (ch : option (list string)) (s : string) : Prop := match ch with Some l => In s l | None => True end.
  Definition denotes (v : value) (x : R) : Prop := match v with VInt z => IZR z = x | VFloat (Fin y) => y = x | _ => False end.
  (** the words of one option and what it sets *)
  Inductive sets (c : command) : list string -> string -> value -> Prop :=
  | SFlag n a b : option_of c n a -> a_kind a = KFlag b -> sets c [n] (a_dest a) (VBool b)
  | SOne n a t ch s v : option_of c n a -> a_kind a = KOne t ch -> word s -> reads t s v -> allowed ch s -> sets c [n; s] (a_dest a) v
  | SMany n a l s r : option_of c n a -> a_kind a = KMany l -> Forall word (s :: r) -> Forall (fun x => In x l) (s :: r) ->
      sets c (n :: s :: r) (a_dest a) (VList (s :: r)).
  Definition says (c : command) (blocks : list (list string)) (ss : list (string * value)) : Prop :=
    Forall2 (fun b dv => sets c b (fst dv) (snd dv)) blocks ss.
  (** the last setting of an argument, or its default *)
  Definition final (c : command) (ss : list (string * value)) (d : string) (v : value) : Prop :=
    (exists a b, ss = (a ++ (d, v) :: b)%list /\ ~ In d (map fst b)) \/ (~ In d (map fst ss) /\ dget (defaults O empty c) d = Some v).
  (** the name of a setup file without directory and without what follows the first dot *)
  Definition stem (path s : string) : Prop :=
    exists d f, names path d f /\ ~ In "."%char (list_ascii_of_string s) /\ (f = s \/ exists r, f = s ++ "." ++ r).
  (** the directory of the outputs *)
  Definition place (c : command) (ss : list (string * value)) (d : string) : Prop :=
    final c ss "outputdir" (VStr d) \/
    (final c ss "outputdir" VNone /\ exists f s, final c ss "setupfn" (VStr f) /\ stem f s /\ d = "./" ++ s).
  Definition there (fs : dict bool) (p : string) : Prop := p <> "" /\ (norm p = "" \/ dget fs (norm p) = Some true).

  (** what a command line that says [ss] comes to *)
  Definition comes_to (c : command) (ss : list (string * value)) (fs : dict bool) (x : dict bool * outcome O) : Prop :=
    match x with
    | (fs', Called c' ns) =>
        c' = c /\ (forall d v, d <> "outputdir" -> final c ss d v -> dget ns d = Some v) /\
        exists d, place c ss d /\ dget ns "outputdir" = Some (VStr d) /\ there fs' d /\
                  (there fs d -> fs' = fs) /\ (forall p, p <> norm d -> dget fs' p = dget fs p)
    | (fs', Ended (Raised e)) =>
        fs' = fs /\
        ((e = TypeError /\ final c ss "outputdir" VNone /\ final c ss "setupfn" VNone) \/
         exists d, place c ss d /\ ~ there fs d /\ (e = FileExistsError /\ dget fs (norm d) = Some false \/ e = FileNotFoundError))
    | (_, Ended (Exit _)) => False
    end.

  (** values that the arguments of a command can have *)
  Definition takes (a : act) (v : value) : Prop :=
    match a_kind a with
    | KFlag b => v = VBool b
    | KOne t ch => exists s, reads t s v /\ allowed ch s
    | KMany l => exists s r, v = VList (s :: r) /\ Forall (fun x => In x l) (s :: r)
    | KHelp => False
    end.
  Definition possible (c : command) (d : string) (v : value) : Prop :=
    dget (defaults O empty c) d = Some v \/ exists a, In a (acts_of c) /\ a_dest a = d /\ takes a v.

  (** words of an option that are refused *)
  Inductive wrong (c : command) : list string -> Prop :=
  | WMissing n a : option_of c n a -> (match a_kind a with KOne _ _ | KMany _ => True | _ => False end) -> wrong c [n]
  | WChoice n a t l s : option_of c n a -> a_kind a = KOne t (Some l) -> word s -> ~ In s l -> wrong c [n; s]
  | WInt n a ch s : option_of c n a -> a_kind a = KOne TInt ch -> word s -> to_int s = None -> wrong c [n; s]
  | WFloat n a ch s : option_of c n a -> a_kind a = KOne TFloat ch -> word s -> to_float s = None -> wrong c [n; s]
  | WMany n a l r s : option_of c n a -> a_kind a = KMany l -> Forall word r -> In s r -> ~ In s l -> wrong c (n :: r).
  (** what may follow: nothing or an option *)
  Definition after (c : command) (l : list string) : Prop := match l with [] => True | n :: _ => exists a, option_of c n a end.
End Lines.
