(** Model of the command line: main, radvel/cli.py:11-240, and of the argument parser it sets up.

    The parser is argparse as in Python 3.8-3.11, for parsers without positional arguments and options that take no value, one
    value or one or more (nargs='+'): options spelt in full, shortened, with =, with the value attached or put together after
    one dash.  Texts that are printed are left out; ending with help or a usage message is [Exit].  int(), float() and eval()
    of a text are arguments; values made by eval are of any type [O].  Directories are a dictionary of normalised paths, true
    for directories. *)
From Coq Require Import Reals String Ascii ZArith Bool List.
From Verif Require Import Py Params Basis Pipeline ReportFile.
Import ListNotations.
Open Scope string_scope.

Inductive ty := TStr | TInt | TFloat | TBool | TEval.
(** store_true and store_false; one value, with choices or without; nargs='+' with choices; help *)
Inductive kind := KFlag (b : bool) | KOne (t : ty) (choices : option (list string)) | KMany (choices : list string) | KHelp.
Record act := mkAct { a_names : list string; a_dest : string; a_kind : kind }.
Definition flaglike (a : act) : bool := match a_kind a with KFlag _ | KHelp => true | _ => false end.

Inductive command := Fit | Plot | Mcmc | Ns | Derive | Ic | Table | Report.
(** the names given to add_parser, cli.py:44-222 *)
Definition command_of (s : string) : option command :=
  if String.eqb s "fit" then Some Fit else if String.eqb s "plot" then Some Plot else if String.eqb s "mcmc" then Some Mcmc
  else if String.eqb s "ns" then Some Ns else if String.eqb s "derive" then Some Derive else if String.eqb s "ic" then Some Ic
  else if String.eqb s "table" then Some Table else if String.eqb s "report" then Some Report else None.

(** cli.py:26-41 with the -h that every parser has *)
Definition help_act : act := mkAct ["-h"; "--help"] "help" KHelp.
Definition parent_acts : list act :=
  [mkAct ["-d"] "outputdir" (KOne TStr None);
   mkAct ["-s"; "--setup"] "setupfn" (KOne TStr None);
   mkAct ["--decorr"] "decorr" (KFlag true)].
Definition sampler_act : act := mkAct ["--sampler"] "sampler" (KOne TStr (Some ["mcmc"; "ns"; "auto"])).
Definition own_acts (c : command) : list act :=
  match c with
  | Fit => []
  | Plot =>                                                                  (* cli.py:50-71 *)
      [mkAct ["-t"; "--type"] "type" (KMany ["rv"; "auto"; "corner"; "trend"; "derived"]);
       mkAct ["--plotkw"] "plotkw" (KOne TEval None);
       mkAct ["--gp"] "gp" (KFlag true);
       sampler_act]
  | Mcmc =>                                                                  (* cli.py:74-126 *)
      [mkAct ["--nsteps"] "nsteps" (KOne TFloat None);
       mkAct ["--nwalkers"] "nwalkers" (KOne TInt None);
       mkAct ["--nensembles"] "ensembles" (KOne TInt None);
       mkAct ["--minAfactor"] "minAfactor" (KOne TFloat None);
       mkAct ["--maxArchange"] "maxArchange" (KOne TFloat None);
       mkAct ["--maxGR"] "maxGR" (KOne TFloat None);
       mkAct ["--burnGR"] "burnGR" (KOne TFloat None);
       mkAct ["--burnAfactor"] "burnAfactor" (KOne TFloat None);
       mkAct ["--minTz"] "minTz" (KOne TInt None);
       mkAct ["--minsteps"] "minsteps" (KOne TInt None);
       mkAct ["--minpercent"] "minpercent" (KOne TFloat None);
       mkAct ["--thin"] "thin" (KOne TInt None);
       mkAct ["--serial"] "serial" (KOne TBool None);
       mkAct ["--save"] "save" (KFlag true);
       mkAct ["--proceed"] "proceed" (KFlag true);
       mkAct ["--headless"] "headless" (KFlag true)]
  | Ns =>                                                                    (* cli.py:129-156 *)
      [mkAct ["--sampler"] "sampler" (KOne TStr (Some ["dynesty-static"; "dynesty-dynamic"; "multinest"; "ultranest"; "nautilus"]));
       mkAct ["--proceed"] "proceed" (KFlag true);
       mkAct ["--overwrite"] "overwrite" (KFlag true);
       mkAct ["--sampler-kwargs"] "sampler_kwargs" (KOne TStr None);
       mkAct ["--run-kwargs"] "run_kwargs" (KOne TStr None)]
  | Derive => [sampler_act]                                                  (* cli.py:159-169 *)
  | Ic =>                                                                    (* cli.py:172-199 *)
      [mkAct ["-t"; "--type"] "type" (KMany ["nplanets"; "e"; "trend"; "jit"; "gp"]);
       mkAct ["-m"; "--mixed"] "mixed" (KFlag true);
       mkAct ["-u"; "--un-mixed"] "mixed" (KFlag false);
       mkAct ["-f"; "--fixjitter"] "fixjitter" (KFlag true);
       mkAct ["-n"; "--no-fixjitter"] "fixjitter" (KFlag false);
       mkAct ["--simple"] "simple" (KFlag true);
       mkAct ["-v"; "--verbose"] "verbose" (KFlag true)]
  | Table =>                                                                 (* cli.py:202-217 *)
      [mkAct ["-t"; "--type"] "type" (KMany ["params"; "priors"; "rv"; "ic_compare"; "derived"; "crit"]);
       mkAct ["--header"] "header" (KFlag true);
       mkAct ["--name_in_title"] "name_in_title" (KFlag true);
       sampler_act]
  | Report =>                                                                (* cli.py:220-229 *)
      [mkAct ["--comptype"] "comptype" (KOne TStr None);
       mkAct ["--latex-compiler"] "latex_compiler" (KOne TStr None);
       sampler_act]
  end.
Definition acts_of (c : command) : list act := help_act :: (parent_acts ++ own_acts c)%list.
(** cli.py:15-19 *)
Definition main_acts : list act := [help_act; mkAct ["--version"] "version" KHelp].

Section Parser.
  Variables (O : Type) (empty : O) (to_int : string -> option Z) (to_float : string -> option ext) (to_obj : string -> res O).
  Inductive value := VNone | VStr (s : string) | VBool (b : bool) | VInt (z : Z) | VFloat (x : ext) | VList (l : list string) | VObj (o : O).
  (** how a process ends before the command is run *)
  Inductive stop := Exit (code : nat) | Raised (e : exn).
  Inductive out (A : Type) := Go (a : A) | Stop (s : stop).
  Arguments Go {A}. Arguments Stop {A}.

  (** the defaults, set_defaults of cli.py:199 included; "{}" is evaluated *)
  Definition defaults (c : command) : dict value :=
    ([("outputdir", VNone); ("setupfn", VNone); ("decorr", VBool false)] ++
    match c with
    | Fit => []
    | Plot => [("type", VNone); ("plotkw", VObj empty); ("gp", VBool false); ("sampler", VStr "auto")]
    | Mcmc =>
        [("nsteps", VInt 10000); ("nwalkers", VInt 50); ("ensembles", VInt 8); ("minAfactor", VInt 40); ("maxArchange", VFloat (Fin (3 / 100)));
         ("maxGR", VFloat (Fin (101 / 100))); ("burnGR", VFloat (Fin (103 / 100))); ("burnAfactor", VInt 25); ("minTz", VInt 1000); ("minsteps", VInt 1000);
         ("minpercent", VInt 5); ("thin", VInt 10); ("serial", VBool false); ("save", VBool false); ("proceed", VBool false); ("headless", VBool false)]
    | Ns => [("sampler", VStr "ultranest"); ("proceed", VBool false); ("overwrite", VBool false); ("sampler_kwargs", VNone); ("run_kwargs", VNone)]
    | Derive => [("sampler", VStr "auto")]
    | Ic => [("type", VStr "trend"); ("mixed", VBool true); ("fixjitter", VBool false); ("simple", VBool false); ("verbose", VBool false); ("unmixed", VBool false)]
    | Table => [("type", VNone); ("header", VBool false); ("name_in_title", VBool false); ("sampler", VStr "auto")]
    | Report => [("comptype", VStr "ic"); ("latex_compiler", VStr "pdflatex"); ("sampler", VStr "auto")]
    end)%list.

  (** the defaults that the help texts of mcmc name, cli.py:77-114 *)
  Definition stated : list (string * R) :=
    [("nsteps", 10000); ("nwalkers", 50); ("ensembles", 8); ("minAfactor", 50); ("maxArchange", 7 / 100); ("maxGR", 101 / 100); ("burnGR", 103 / 100);
     ("burnAfactor", 25); ("minTz", 1000); ("minsteps", 1000); ("minpercent", 5); ("thin", 10)]%R.

  (** the option of a name *)
  Definition find_act (acts : list act) (o : string) : option act := find (fun a => str_in o (a_names a)) acts.
  Fixpoint has_char (x : ascii) (s : string) : bool := match s with "" => false | String c r => Ascii.eqb c x || has_char x r end.
  (** arg.split('=', 1) of a text with a = *)
  Fixpoint split_eq (s : string) : string * string :=
    match s with
    | "" => ("", "")
    | String c r => if Ascii.eqb c "=" then ("", r) else let '(a, b) := split_eq r in (String c a, b)
    end.
  (** '^-\d+$|^-\d*\.\d+$' *)
  Definition digit (c : ascii) : bool := (48 <=? nat_of_ascii c)%nat && (nat_of_ascii c <=? 57)%nat.
  Fixpoint all_digits (s : string) : bool := match s with "" => true | String c r => digit c && all_digits r end.
  Fixpoint decimal (s : string) : bool :=
    match s with
    | "" => false
    | String c r => if Ascii.eqb c "." then negb (String.eqb r "") && all_digits r else digit c && decimal r
    end.
  Definition negative_number (s : string) : bool :=
    match s with String c r => Ascii.eqb c "-" && (negb (String.eqb r "") && all_digits r || decimal r) | "" => false end.

  (** _parse_optional and _get_option_tuples: the option a word is, with the value attached to it *)
  Inductive cls := CVal | COpt (o : string) (a : act) (e : option string) | CUnknown | CAmbiguous.
  Definition starting (acts : list act) (p : string) : list (string * act) :=
    flat_map (fun a => map (fun n => (n, a)) (filter (fun n => String.prefix p n) (a_names a))) acts.
  Definition other (w : string) : cls := if negative_number w || has_char " " w then CVal else CUnknown.
  Definition classify (acts : list act) (w : string) : cls :=
    match w with
    | "" => CVal
    | String c r =>
        if negb (Ascii.eqb c "-") then CVal
        else match find_act acts w with
        | Some a => COpt w a None
        | None =>
            if String.eqb r "" then CVal
            else let '(n, v) := split_eq w in
            match (if has_char "=" w then find_act acts n else None) with
            | Some a => COpt n a (Some v)
            | None =>
                if String.prefix "-" r then
                  match starting acts n with
                  | [] => other w
                  | [(o, a)] => COpt o a (if has_char "=" w then Some v else None)
                  | _ => CAmbiguous
                  end
                else match r with
                     | String x v => match find_act acts (String c (String x "")) with
                                     | Some a => COpt (String c (String x "")) a (Some v)
                                     | None => other w
                                     end
                     | "" => CVal
                     end
            end
        end
    end.

  (** consume_optional with several options after one dash: the options without a value that come first, and the last one *)
  Fixpoint cluster (acts : list act) (pre : list act) (a : act) (e : string) : option (list act * act * option string) :=
    match e with
    | "" => None
    | String x r =>
        match find_act acts (String "-" (String x "")) with
        | None => None
        | Some b => if String.eqb r "" then Some ((pre ++ [a])%list, b, None)
                    else if flaglike b then cluster acts (pre ++ [a])%list b r
                    else Some ((pre ++ [a])%list, b, Some r)
        end
    end.
  Definition short (o : string) : bool := match o with String _ (String x _) => negb (Ascii.eqb x "-") | _ => false end.

  (** _get_value: ValueError and TypeError of the conversion end with a usage message; bool('') is False *)
  Definition convert (t : ty) (s : string) : out value :=
    match t with
    | TStr => Go (VStr s)
    | TBool => Go (VBool (negb (String.eqb s "")))
    | TInt => match to_int s with Some z => Go (VInt z) | None => Stop (Exit 2) end
    | TFloat => match to_float s with Some x => Go (VFloat x) | None => Stop (Exit 2) end
    | TEval => match to_obj s with
               | Ok o => Go (VObj o)
               | Err TypeError | Err ValueError => Stop (Exit 2)
               | Err e => Stop (Raised e)
               end
    end.
  (** take_action *)
  Definition store (a : act) (vals : list string) (ns : dict value) : out (dict value) :=
    match a_kind a, vals with
    | KHelp, _ => Stop (Exit 0)
    | KFlag b, _ => Go (dset ns (a_dest a) (VBool b))
    | KOne t ch, [s] =>
        match convert t s with
        | Stop x => Stop x
        | Go v => match ch with
                  | Some l => if str_in s l then Go (dset ns (a_dest a) v) else Stop (Exit 2)
                  | None => Go (dset ns (a_dest a) v)
                  end
        end
    | KMany l, _ => if forallb (fun s => str_in s l) vals then Go (dset ns (a_dest a) (VList vals)) else Stop (Exit 2)
    | KOne _ _, _ => Stop (Exit 2)
    end.
  Fixpoint store_all (pre : list act) (ns : dict value) : out (dict value) :=
    match pre with [] => Go ns | a :: r => match store a [] ns with Go ns => store_all r ns | Stop x => Stop x end end.

  (** the words read: no option is open, one that needs a value, one that takes more of them *)
  Inductive mode := Idle | Want (pre : list act) (a : act) | Taking (pre : list act) (a : act) (vals : list string).
  Definition close (m : mode) (ns : dict value) : out (dict value) :=
    match m with
    | Idle => Go ns
    | Want _ _ => Stop (Exit 2)
    | Taking pre a vals => match store_all pre ns with Go ns => store a vals ns | Stop x => Stop x end
    end.
  (** an option without a value attached *)
  Definition open_ (pre : list act) (a : act) (ns : dict value) : out (dict value * mode) :=
    if flaglike a then match store_all (pre ++ [a])%list ns with Go ns => Go (ns, Idle) | Stop x => Stop x end else Go (ns, Want pre a).
  Definition store_pre (pre : list act) (a : act) (v : string) (ns : dict value) : out (dict value * mode) :=
    match store_all pre ns with
    | Go ns => match store a [v] ns with Go ns => Go (ns, Idle) | Stop x => Stop x end
    | Stop x => Stop x
    end.
  Definition option_ (acts : list act) (o : string) (a : act) (e : option string) (ns : dict value) : out (dict value * mode) :=
    match e with
    | None => open_ [] a ns
    | Some v =>
        if flaglike a then
          if short o then
            match cluster acts [] a v with
            | None => Stop (Exit 2)
            | Some (pre, b, None) => open_ pre b ns
            | Some (pre, b, Some v) => store_pre pre b v ns
            end
          else Stop (Exit 2)
        else store_pre [] a v ns
    end.
  Definition value_ (m : mode) (w : string) (ns : dict value) (extras : bool) : out (dict value * mode * bool) :=
    match m with
    | Idle => Go (ns, Idle, true)
    | Want pre a =>
        match a_kind a with
        | KMany _ => Go (ns, Taking pre a [w], extras)
        | _ => match store_pre pre a w ns with Go (ns, m) => Go (ns, m, extras) | Stop x => Stop x end
        end
    | Taking pre a vals => Go (ns, Taking pre a (vals ++ [w])%list, extras)
    end.
  (** _parse_known_args after the words have been told apart; after a word -- all is left over *)
  Fixpoint words (acts : list act) (l : list string) (ns : dict value) (m : mode) (extras : bool) : out (dict value * bool) :=
    match l with
    | [] => match close m ns with Go ns => Go (ns, extras) | Stop x => Stop x end
    | w :: r =>
        if String.eqb w "--" then match close m ns with Go ns => Go (ns, true) | Stop x => Stop x end
        else match classify acts w with
        | CVal => match value_ m w ns extras with Go (ns, m, extras) => words acts r ns m extras | Stop x => Stop x end
        | COpt o a e =>
            match close m ns with
            | Stop x => Stop x
            | Go ns => match option_ acts o a e ns with Go (ns, m) => words acts r ns m extras | Stop x => Stop x end
            end
        | CUnknown => match close m ns with Stop x => Stop x | Go ns => words acts r ns Idle true end
        | CAmbiguous => Stop (Exit 2)
        end
    end.
  (** ambiguous words are found before any option is stored *)
  Fixpoint ambiguous (acts : list act) (l : list string) : bool :=
    match l with
    | [] => false
    | w :: r => if String.eqb w "--" then false
                else match classify acts w with CAmbiguous => true | _ => ambiguous acts r end
    end.
  Definition parse_sub (c : command) (l : list string) : out (dict value * bool) :=
    if ambiguous (acts_of c) l then Stop (Exit 2) else words (acts_of c) l (defaults c) Idle false.
  (** the parser of cli.py:12-21: options before the command; words left over end with a usage message *)
  Fixpoint parse_main (l : list string) (extras : bool) : out (option (command * dict value)) :=
    match l with
    | [] => if extras then Stop (Exit 2) else Go None
    | w :: r =>
        if String.eqb w "--" then Stop (Exit 2)
        else match classify main_acts w with
        | CVal =>
            match command_of w with
            | None => Stop (Exit 2)
            | Some c =>
                match parse_sub c r with
                | Stop x => Stop x
                | Go (ns, more) => if more || extras then Stop (Exit 2) else Go (Some (c, ns))
                end
            end
        | COpt o a e =>
            match option_ main_acts o a e [] with
            | Stop x => Stop x
            | Go _ => Stop (Exit 2)                                          (* neither --help nor --version goes on *)
            end
        | CUnknown => parse_main r true
        | CAmbiguous => Stop (Exit 2)
        end
    end.

  (** paths: './' before and slashes after do not matter; the empty one is the current directory *)
  Fixpoint no_slash_after (s : string) : string :=
    match s with
    | "" => ""
    | String c r => match no_slash_after r with "" => if Ascii.eqb c "/" then "" else String c "" | q => String c q end
    end.
  Definition norm (p : string) : string :=
    let q := no_slash_after p in
    if String.eqb q "." then "" else match q with String a (String b r) => if Ascii.eqb a "." && Ascii.eqb b "/" then r else q | _ => q end.
  Definition isdir (fs : dict bool) (p : string) : bool :=
    if String.eqb p "" then false
    else if String.eqb (norm p) "" then true else match dget fs (norm p) with Some b => b | None => false end.
  (** os.mkdir: something there, or no directory to make it in *)
  Definition mkdir (fs : dict bool) (p : string) : res (dict bool) :=
    if String.eqb p "" then Err FileNotFoundError
    else if dmem fs (norm p) then Err FileExistsError
    else if String.eqb (dirname (norm p)) "" || isdir fs (dirname (norm p)) then Ok (dset fs (norm p) true)
    else Err FileNotFoundError.

  (** what a process comes to: it ends, or a command is called with its arguments *)
  Inductive outcome := Ended (s : stop) | Called (c : command) (ns : dict value).
  Definition outdir (ns : dict value) : res string :=
    match dget ns "outputdir" with
    | Some (VStr d) => Ok d
    | _ => match dget ns "setupfn" with
           | Some (VStr f) => Ok ("./" ++ before_dot (basename f))
           | _ => Err TypeError                                              (* os.path.basename(None) *)
           end
    end.
  (** main, cli.py:231-243; without a command the arguments have no outputdir *)
  Definition main (fs : dict bool) (argv : list string) : dict bool * outcome :=
    match parse_main argv false with
    | Stop x => (fs, Ended x)
    | Go None => (fs, Ended (Raised AttributeError))
    | Go (Some (c, ns)) =>
        match outdir ns with
        | Err e => (fs, Ended (Raised e))
        | Ok d =>
            let ns := dset ns "outputdir" (VStr d) in
            if isdir fs d then (fs, Called c ns)
            else match mkdir fs d with
                 | Ok fs => (fs, Called c ns)
                 | Err e => (fs, Ended (Raised e))
                 end
        end
    end.
  (** os.path.join(d, name) for a name without a slash *)
  Definition join (d name : string) : string :=
    if String.eqb d "" || String.eqb (basename d) "" then d ++ name else d ++ "/" ++ name.
  (** the start of the commands, driver.py:39-43, 146-161, 172-175, 349-352, 406-410, 469-472, 573-576, 694-699 *)
  Definition status_file (ns : dict value) : res string :=
    match dget ns "setupfn", dget ns "outputdir" with
    | Some (VStr f), Some (VStr d) => Ok (join d (before_dot (basename f) ++ "_radvel.stat"))
    | _, _ => Err TypeError
    end.
  (** for ... in args.type: a text is taken apart *)
  Fixpoint letters (s : string) : list string := match s with "" => [] | String c r => String c "" :: letters r end.
  Definition types (ns : dict value) : res (list string) :=
    match dget ns "type" with
    | Some (VList l) => Ok l
    | Some (VStr s) => Ok (letters s)
    | _ => Err TypeError
    end.
End Parser.
Arguments VNone {O}. Arguments VStr {O}. Arguments VBool {O}. Arguments VInt {O}. Arguments VFloat {O}. Arguments VList {O}. Arguments VObj {O}.
Arguments Go {A}. Arguments Stop {A}. Arguments Ended {O}. Arguments Called {O}.
