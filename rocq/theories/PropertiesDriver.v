(** Property theorems C46, C47, C48, C52: status file, choice of the sampler, keyword
    strings, model comparison table. *)
From Coq Require Import Reals String Ascii ZArith Bool Lia Lra Sorted Permutation List.
From Verif Require Import Py PyFloat PyFacts Mass Status StatusProofs StatusSpec StatusThms Kwargs KwargsSpec KwargsProofs CompTable CompTableSpec CompTableProofs.
Import ListNotations.
Open Scope string_scope.
Open Scope nat_scope.


(** * C46 *)
(** Any sequence of saves, starting from any file that can be read: afterwards each option
    has the value last saved, options never saved are as they were, and the sections are the
    old ones and those saved. Missing from the full claim: names, keys and values outside
    [save_ok] (C46_altered_refuted, C46_key_refuted, C46_unreadable_refuted) and crashes
    (C46_crash_refuted). *)
Theorem C46_saves_partial : forall saves,
  Forall save_ok saves -> forall f c0, load_status f = Ok c0 ->
  exists f' c, save_all f saves = (f', Ok tt) /\ load_status f' = Ok c /\ c_def c = c_def c0 /\
    (forall sec, In sec (dkeys (c_sec c)) <-> In sec (dkeys (c_sec c0)) \/ In sec (map fst saves)) /\
    forall sec k, status c sec k = match last_saved saves sec k with Some v => Some v | None => status c0 sec k end.
Proof. exact save_sequence. Qed.
Print Assumptions C46_saves_partial.

Definition ex_saves : list (string * dict string) :=
  [("fit", [("run", "True"); ("postfile", "a/b post.pkl")]); ("ic_compare", [("ic", "[{'AICc': 1.5}," ++ String nl "{'AICc': 2}]")]);
   ("fit", [("Run", "False")]); ("mcmc", [("run", "True"); ("maxGR", "1.01")])].
Example C46_saves_partial_ex : Forall save_ok ex_saves /\ last_saved ex_saves "fit" "run" = Some "False" /\ last_saved ex_saves "fit" "postfile" = Some "a/b post.pkl".
Proof.
  split; [|split; reflexivity].
  repeat constructor; cbn; try discriminate; try reflexivity.
Qed.

(** One save: the order of the sections is kept too. *)
Theorem C46_one : forall f sec vars c0,
  load_status f = Ok c0 -> save_ok (sec, vars) ->
  exists c, save_status f sec vars = (Some (write c), Ok tt) /\ load_status (Some (write c)) = Ok c /\ c_def c = c_def c0 /\
    dkeys (c_sec c) = (if has_section c0 sec then dkeys (c_sec c0) else (dkeys (c_sec c0) ++ [sec])%list) /\
    forall sec' k, status c sec' k = if String.eqb sec sec' then match last_in vars k with Some v => Some v | None => status c0 sec' k end else status c0 sec' k.
Proof. exact save_one. Qed.
Print Assumptions C46_one.

(** What a file says does not change when it is written back. *)
Theorem C46_stable : forall t c,
  parse t = Ok c -> parse (write c) = Ok c.
Proof. exact load_write_load. Qed.
Print Assumptions C46_stable.

Example C46_stable_ex : exists c, parse ("[fit]" ++ String nl ("# note" ++ String nl ("Run: yes" ++ String nl ("x = a" ++ String nl ("  b" ++ String nl ""))))) = Ok c /\
  status c "fit" "run" = Some "yes" /\ status c "fit" "x" = Some ("a" ++ String nl "b").
Proof. eexists. split; [vm_compute; reflexivity|]. split; reflexivity. Qed.

(** A call that raises leaves the file as it was. *)
Theorem C46_raises : forall f sec vars e,
  snd (save_status f sec vars) = Err e -> fst (save_status f sec vars) = f.
Proof. exact save_raises. Qed.
Print Assumptions C46_raises.

Example C46_raises_ex : snd (save_status (Some "x") "fit" []) = Err PlainException.
Proof. reflexivity. Qed.

(** The section name DEFAULT is refused. *)
Theorem C46_default : forall f c vars,
  load_status f = Ok c -> save_status f "DEFAULT" vars = (f, Err ValueError).
Proof. exact save_default. Qed.
Print Assumptions C46_default.

(** A process killed while saving leaves the old file or the first part of the new one. *)
Theorem C46_crash_leaves : forall f sec vars g,
  crashed f sec vars g ->
  g = f \/ exists t b, save_status f sec vars = (Some (t ++ b), Ok tt) /\ g = Some t.
Proof. exact crash_leaves. Qed.
Print Assumptions C46_crash_leaves.

Example C46_crash_leaves_ex : crashed None "fit" [] (Some "[f").
Proof. apply (cr_writing None "fit" [] (mkCfg [] [("fit", [])]) "[f" ("it]" ++ String nl (String nl ""))); reflexivity. Qed.

(** Every save that would succeed can, when killed right after the file is opened, lose all
    that was stored before. *)
Theorem C46_crash_refuted : forall f sec vars,
  (exists g, save_status f sec vars = (g, Ok tt)) ->
  exists g, crashed f sec vars g /\ load_status g = Ok no_config.
Proof. exact crash_loses. Qed.
Print Assumptions C46_crash_refuted.

Example C46_crash_refuted_ex : exists f c g, load_status (Some f) = Ok c /\ status c "fit" "run" = Some "True" /\
  save_status (Some f) "mcmc" [("run", "True")] = (g, Ok tt).
Proof. exists ("[fit]" ++ String nl ("run = True" ++ String nl "")). eexists. eexists. split; [vm_compute; reflexivity|]. split; reflexivity. Qed.

(** A value with a blank in front comes back without it. *)
Theorem C46_altered_refuted : exists sec k v f c, save_status None sec [(k, v)] = (Some f, Ok tt) /\ load_status (Some f) = Ok c /\ status c sec k <> Some v /\ status c sec k <> None.
Proof. exact save_altered_refuted. Qed.
Print Assumptions C46_altered_refuted.

(** A key with a colon is cut there. *)
Theorem C46_key_refuted : exists sec k v f c, save_status None sec [(k, v)] = (Some f, Ok tt) /\ load_status (Some f) = Ok c /\ status c sec k = None /\ status c sec "a" = Some "b = x".
Proof. exact save_key_refuted. Qed.
Print Assumptions C46_key_refuted.

(** A key starting with "=" makes the file unreadable, also for the stages stored before. *)
Theorem C46_unreadable_refuted : exists f0 sec k v f, load_status f0 <> Ok no_config /\ save_status f0 sec [(k, v)] = (Some f, Ok tt) /\ load_status (Some f) = Err PlainException.
Proof. exact save_unreadable_refuted. Qed.
Print Assumptions C46_unreadable_refuted.

(** * C47 *)
(** A sampler that is returned has its results recorded, is the one asked for or chosen by
    'auto', and 'auto' gives 'ns' only if there are no MCMC results. *)
Theorem C47_sound : forall s c r,
  pick_sampler s c = Ok r ->
  (r = "mcmc" \/ r = "ns") /\ recorded c r /\ (s = r \/ s = "auto") /\ (s = "auto" -> r = "ns" -> ~ recorded c "mcmc").
Proof. exact pick_sound. Qed.
Print Assumptions C47_sound.

Definition ex_cfg (a b : string) : config := mkCfg [] [("fit", [("run", "True")]); ("mcmc", [("run", a)]); ("ns", [("run", b)])].
Example C47_sound_ex : pick_sampler "auto" (ex_cfg "True" "True") = Ok "mcmc" /\ pick_sampler "auto" (ex_cfg "False" "True") = Ok "ns" /\
  pick_sampler "ns" (ex_cfg "True" "True") = Ok "ns".
Proof. repeat split. Qed.

(** All requests, for records that can be read. *)
Theorem C47_complete : forall c a b,
  has_run c "mcmc" = Ok a -> has_run c "ns" = Ok b -> forall s,
  (a = true -> s = "auto" \/ s = "mcmc" -> pick_sampler s c = Ok "mcmc") /\
  (b = true -> (s = "auto" /\ a = false) \/ s = "ns" -> pick_sampler s c = Ok "ns") /\
  (a = false -> b = false -> pick_sampler s c = Err AssertionError) /\
  (a || b = true -> (s = "mcmc" /\ a = false) \/ (s = "ns" /\ b = false) \/ ~ In s ["auto"; "mcmc"; "ns"] -> pick_sampler s c = Err ValueError).
Proof. exact pick_complete. Qed.
Print Assumptions C47_complete.

Example C47_complete_ex : has_run (ex_cfg "True" "off") "mcmc" = Ok true /\ has_run (ex_cfg "True" "off") "ns" = Ok false.
Proof. split; reflexivity. Qed.

(** A record that is no truth value raises. *)
Theorem C47_damaged : forall c s e,
  has_run c "mcmc" = Err e \/ (exists a, has_run c "mcmc" = Ok a) /\ has_run c "ns" = Err e -> pick_sampler s c = Err e.
Proof. exact pick_raises. Qed.
Print Assumptions C47_damaged.

Example C47_damaged_ex : pick_sampler "auto" (ex_cfg "True" "perhaps") = Err ValueError.
Proof. apply (pick_raises (ex_cfg "True" "perhaps") "auto" ValueError). right. split; [exists true|]; reflexivity. Qed.

(** With the status file: after any sequence of saves from no file, in which the samplers
    that were saved are recorded as run. *)
Theorem C47_after_saves : forall saves,
  Forall save_ok saves ->
  (forall sec, In sec (map fst saves) -> sec = "mcmc" \/ sec = "ns" -> ran (last_saved saves sec "run")) ->
  exists f c, save_all None saves = (f, Ok tt) /\ load_status f = Ok c /\
    (In "mcmc" (map fst saves) -> pick_sampler "auto" c = Ok "mcmc" /\ pick_sampler "mcmc" c = Ok "mcmc") /\
    (In "ns" (map fst saves) -> pick_sampler "ns" c = Ok "ns") /\
    (~ In "mcmc" (map fst saves) -> In "ns" (map fst saves) -> pick_sampler "auto" c = Ok "ns") /\
    (~ In "mcmc" (map fst saves) -> ~ In "ns" (map fst saves) -> forall s, pick_sampler s c = Err AssertionError).
Proof. exact pick_after_saves. Qed.
Print Assumptions C47_after_saves.

Example C47_after_saves_ex : Forall save_ok ex_saves /\ last_saved ex_saves "mcmc" "run" = Some "True".
Proof. split; [exact (proj1 C46_saves_partial_ex)|reflexivity]. Qed.

(** * C48 *)
(** Formatted lists: every key has its value, the last one if it is repeated. *)
Theorem C48_inverts : forall l,
  l <> [] -> all_clean l ->
  exists d, process_kwargs_str (Some (format l)) = Ok d /\ wf_dict d /\
    forall k, dget d k = match last_value l k with Some v => Some (cast_str_arg v) | None => None end.
Proof. exact process_format. Qed.
Print Assumptions C48_inverts.

Example C48_inverts_ex : format [("a", "1"); ("b", "x"); ("a", "2.5")] = "a=1 b=x a=2.5" /\ all_clean [("a", "1"); ("b", "x"); ("a", "2.5")] /\
  process_kwargs_str (Some "a=1 b=x a=2.5") = Ok [("a", VFloat (Dec false 25 (-1))); ("b", VStr "x")].
Proof. split; [reflexivity|]. split; [|reflexivity]. repeat constructor; cbn; intuition discriminate. Qed.

(** Whatever is accepted is a formatted list of at least one item. *)
Theorem C48_accepts : forall s d,
  process_kwargs_str (Some s) = Ok d -> exists l, l <> [] /\ all_clean l /\ s = format l.
Proof. exact process_accepts. Qed.
Print Assumptions C48_accepts.

(** Every other text raises ValueError; nothing is dropped. *)
Theorem C48_refuses : forall s,
  (forall l, l <> [] -> all_clean l -> s <> format l) -> process_kwargs_str (Some s) = Err ValueError.
Proof. exact process_refuses. Qed.
Print Assumptions C48_refuses.

Example C48_refuses_ex : process_kwargs_str (Some "a=1 b") = Err ValueError /\ process_kwargs_str (Some "a=1  b=2") = Err ValueError /\
  process_kwargs_str (Some "a==1") = Err ValueError /\ process_kwargs_str (Some "") = Err ValueError /\ process_kwargs_str None = Ok [].
Proof. repeat split. Qed.

(** The type of a value: int, then float, then bool, then the text itself. *)
Theorem C48_types : forall s v,
  cast_str_arg s = v <->
  match v with
  | VInt z => int_text s z
  | VFloat x => (forall z, ~ int_text s z) /\ float_text s x
  | VBool b => (forall z, ~ int_text s z) /\ (forall x, ~ float_text s x) /\ lower s = (if b then "true" else "false")
  | VStr t => t = s /\ (forall z, ~ int_text s z) /\ (forall x, ~ float_text s x) /\ lower s <> "true" /\ lower s <> "false"
  end.
Proof. exact cast_spec. Qed.
Print Assumptions C48_types.

Example C48_types_ex : map cast_str_arg ["-07"; "1_000"; "1e3"; "nan"; "TRUE"; "1__0"; "true "] =
  [VInt (-7); VInt 1000; VFloat (Dec false 1 3); VFloat NotANumber; VBool true; VStr "1__0"; VStr "true "].
Proof. reflexivity. Qed.

(** * C52 *)
(** The rows of the table: the models in order of AICc, each group announced at its first
    model by the label for the difference to the best one, with a rule before each group and
    below the best model. Missing from the full claim: models after the fiftieth
    (C52_omitted_refuted). *)
Theorem C52_rows_partial : forall (two_digits : ext -> string) (l : list stats), finite_or_inf l -> l <> [] ->
  let ms := firstn 50 (sort l) in
  (forall i, i < shown l -> exists t, s_cells (model ms i) = Ok t) ->
  tab_comparison two_digits (Some l) = Ok (Some (flat_map (spec_row two_digits ms) (seq 0 (shown l)))).
Proof. exact (fun td l F N => table_rows_spec td l F N). Qed.
Print Assumptions C52_rows_partial.

Definition ex_stats : list stats := [mkStats (Fin 15) (Ok " & c"); mkStats (Fin 5) (Ok " & a"); mkStats (Fin 7) (Ok " & b"); mkStats (Fin 5) (Ok " & d")].
Example C52_rows_partial_ex : finite_or_inf ex_stats /\ ex_stats <> [] /\ map (fun x => label_of (Fin (x - 5))) [5; 7; 15]%R =
  ["AICc Favored Model"; "Nearly Indistinguishable"; "Strongly Disfavored"].
Proof.
  split; [repeat constructor; discriminate|]. split; [discriminate|]. cbn [map].
  pose proof (label_thresholds (5 - 5)) as (A & _). pose proof (label_thresholds (7 - 5)) as (_ & B & _). pose proof (label_thresholds (15 - 5)) as (_ & _ & _ & C & _).
  repeat f_equal; [apply A|apply B|apply C]; lra.
Qed.

(** The label for a finite difference. *)
Theorem C52_thresholds : forall x,
  (label_of (Fin x) = "AICc Favored Model" <-> x <= 0)%R /\
  (label_of (Fin x) = "Nearly Indistinguishable" <-> 0 < x <= 2)%R /\
  (label_of (Fin x) = "Somewhat Disfavored" <-> 2 < x <= 4)%R /\
  (label_of (Fin x) = "Strongly Disfavored" <-> 4 < x <= 10)%R /\
  (label_of (Fin x) = "Ruled Out" <-> 10 < x)%R.
Proof. exact label_thresholds. Qed.
Print Assumptions C52_thresholds.

(** Each model shown has exactly one group: the label last written at or above it. *)
Theorem C52_one_group : forall l : list stats,
  let ms := firstn 50 (sort l) in
  forall i, i < shown l -> exists j, j <= i /\ label ms j = group ms i /\ label ms j <> "" /\ forall k, j < k -> k <= i -> label ms k = "".
Proof. exact label_read. Qed.
Print Assumptions C52_one_group.

(** No group is announced twice. *)
Theorem C52_contiguous : forall l : list stats, finite_or_inf l ->
  let ms := firstn 50 (sort l) in
  forall i j k, i <= j -> j <= k -> k < shown l -> group ms i = group ms k -> group ms j = group ms i.
Proof. exact groups_contiguous. Qed.
Print Assumptions C52_contiguous.

(** The order: all models, *)
Theorem C52_permutation : forall l,
  Permutation l (sort l).
Proof. exact sort_perm. Qed.
Print Assumptions C52_permutation.

(** by AICc, *)
Theorem C52_sorted : forall l,
  finite_or_inf l -> StronglySorted below (sort l).
Proof. exact sort_sorted. Qed.
Print Assumptions C52_sorted.

(** equal ones as they were. *)
Theorem C52_stable : forall v l,
  v <> NaN -> finite_or_inf l -> filter (same v) (sort l) = filter (same v) l.
Proof. exact sort_stable. Qed.
Print Assumptions C52_stable.

(** An entry that cannot be formatted raises. *)
Theorem C52_raises : forall td l a s b e,
  firstn 50 (sort l) = (a ++ s :: b)%list -> Forall (fun x => exists c, s_cells x = Ok c) a -> s_cells s = Err e ->
  tab_comparison td (Some l) = Err e.
Proof. exact table_raises. Qed.
Print Assumptions C52_raises.

(** No comparison gives the empty text. *)
Theorem C52_empty : forall td,
  tab_comparison td None = Ok None /\ tab_comparison td (Some []) = Ok None.
Proof. exact table_empty. Qed.
Print Assumptions C52_empty.

(** With 51 models one of finite AICc is not in the table. *)
Theorem C52_omitted_refuted : exists l s, finite_or_inf l /\ (exists x, s_aicc s = Fin x) /\ In s l /\ ~ In s (firstn 50 (sort l)) /\
  forall td, tab_comparison td (Some l) = Ok (Some (flat_map (spec_row td (firstn 50 (sort l))) (seq 0 50))).
Proof. exact table_omits_refuted. Qed.
Print Assumptions C52_omitted_refuted.
