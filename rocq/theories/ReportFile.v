(** Model of the files of a report: RadvelReport.compile, radvel/report.py:124-174, the part of driver.report that calls it,
    radvel/driver.py:748-757, and the recording of plots, driver.py:53-136.

    Directories are dictionaries from file names to contents of any type [F]; [tex] is the file of a document.  There are the
    output directory and the temporary one; files saved in other directories are not kept.  Directories can be read and
    written and the disk is not full.  [draw] and [document] stand for the making of plots (C75-C80) and of the document (C81)
    and may raise; [compiler] is one run of the LaTeX compiler in the temporary directory, None if it cannot be run (OSError).
    Paths are normalised, as os.path.relpath leaves them; [rel] is that of the output directory, empty if it is the current
    one.  The status file is reduced to its section [plot] (C46 for the rest). *)
From Coq Require Import String Ascii Arith Bool List.
From Verif Require Import Py Params Pipeline TabRun.
Import ListNotations.
Open Scope string_scope.

(** os.path.basename, os.path.dirname: at the last slash *)
Fixpoint has_slash (s : string) : bool := match s with "" => false | String c r => Ascii.eqb c "/" || has_slash r end.
Fixpoint basename (s : string) : string :=
  match s with "" => "" | String c r => if has_slash s then basename r else s end.
Fixpoint dirname (s : string) : string :=
  match s with
  | "" => ""
  | String c r => if has_slash r then String c (dirname r) else ""
  end.
(** os.path.relpath(os.path.join(outputdir, name)) *)
Definition in_dir (rel name : string) : string := if String.eqb rel "" then name else rel ++ "/" ++ name.
(** pdfname.split('.')[0] *)
Fixpoint before_dot (s : string) : string := match s with "" => "" | String c r => if Ascii.eqb c "." then "" else String c (before_dot r) end.

(** where the process is: where it was started, in the output directory, in the temporary one *)
Inductive place := Start | Out | Temp.

Section Files.
  Variables (F : Type).
  Record files := mkFiles { r_out : dict F; r_temp : option (dict F); r_cwd : place; r_plots : option (dict string) }.
  Definition here (w : files) (p : place) : files := mkFiles (r_out w) (r_temp w) p (r_plots w).

  Section Plots.
    Variables (rel conf_base : string) (draw : ptype -> res F).
    Definition plot_suffix (t : ptype) : string :=
      match t with PRv => "_rv_multipanel.pdf" | PAuto => "_auto.pdf" | PCorner => "_corner.pdf" | PTrend => "_trends.pdf" | PDerived => "_corner_derived_pars.pdf" end.
    (** driver.py:59-67, 98-136: the file of a plot; [saveplot] is args.plotkw['saveplot'], taken by the first velocity plot *)
    Definition saveto (saveplot : option string) (t : ptype) : string * option string :=
      match t, saveplot with
      | PRv, Some p => (p, None)
      | _, _ => (in_dir rel (conf_base ++ plot_suffix t), saveplot)
      end.
    Definition plot_step (st : files * option string) (t : ptype) : res (files * option string) :=
      let '(w, saveplot) := st in
      let '(path, saveplot) := saveto saveplot t in
      do f <- draw t;
      Ok (mkFiles (if String.eqb (dirname path) rel then dset (r_out w) (basename path) f else r_out w) (r_temp w) (r_cwd w)
                  (Some (dset (match r_plots w with Some d => d | None => [] end) (ptext t ++ "_plot") path)), saveplot).
    (** one `radvel plot`, as far as it got *)
    Fixpoint plot_cmd (types : list ptype) (st : files * option string) : files * res unit :=
      match types with
      | [] => (fst st, Ok tt)
      | t :: r => match plot_step st t with Ok st => plot_cmd r st | Err e => (fst st, Err e) end
      end.
  End Plots.

  Section Compile.
    Variables (tex : doc -> F) (document : (string -> bool) -> res doc) (compiler : string -> dict F -> option (dict F)).
    (** report.py:141-144 *)
    Fixpoint copy_deps (out temp : dict F) (depfiles : list string) : dict F * res unit :=
      match depfiles with
      | [] => (temp, Ok tt)
      | f :: r => match dget out f with Some x => copy_deps out (dset temp f x) r | None => (temp, Err FileNotFoundError) end
      end.
    (** report.py:154-161: range(3); a run that cannot be started ends the loop, files made before stay *)
    Fixpoint runs (n : nat) (texname : string) (temp : dict F) : dict F * bool :=
      match n with
      | O => (temp, true)
      | S n => match compiler texname temp with Some temp => runs n texname temp | None => (temp, false) end
      end.
    (** compile, report.py:124-174, called in the output directory *)
    Definition compile (pdfname : string) (depfiles : list string) (w : files) : files * res unit :=
      let texname := before_dot (basename pdfname) ++ ".tex" in
      let '(temp, r) := copy_deps (r_out w) [] depfiles in
      match r with
      | Err e => (mkFiles (r_out w) (Some temp) (r_cwd w) (r_plots w), Err e)
      | Ok _ =>
          match document (dmem temp) with
          | Err e => (mkFiles (r_out w) (Some temp) Temp (r_plots w), Err e)      (* an empty .tex file is left in temp *)
          | Ok d =>
              let temp := dset temp texname (tex d) in
              let out := dset (r_out w) texname (tex d) in
              let '(temp, ran) := runs 3 texname temp in
              if negb ran then (mkFiles out (Some temp) Temp (r_plots w), Ok tt)
              else match dget temp pdfname with
                   | None => (mkFiles out (Some temp) Temp (r_plots w), Err FileNotFoundError)
                   | Some x => (mkFiles (dset out pdfname x) None (r_cwd w) (r_plots w), Ok tt)
                   end
          end
      end.
    (** driver.py:748-757 with working_directory (C54); without a section plot configparser raises NoSectionError *)
    Definition report_files (conf_base : string) (w : files) : files * res unit :=
      match r_plots w with
      | None => (w, Err PlainException)
      | Some plots =>
          let depfiles := map (fun kf => basename (snd kf)) plots in
          let '(w', r) := compile (conf_base ++ "_results.pdf") depfiles (here w Out) in
          (here w' Start, r)
      end.
  End Compile.
End Files.
Arguments mkFiles {F}. Arguments r_out {F}. Arguments r_temp {F}. Arguments r_cwd {F}. Arguments r_plots {F}.
