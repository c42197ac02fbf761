(** Model of telplot and mtelplot, radvel/plot/__init__.py:14-36, 43, 48-134: which points a panel draws,
    under which label and in which colour.  The drawing itself (pl.errorbar, axis formatters) is not modelled.

    Formats are dictionaries from option names to texts.  The dictionaries of the user's [telfmts] are distinct
    objects, none of them one of the defaults. *)
From Coq Require Import Reals String Arith Bool List.
From Verif Require Import Py PyFloat Timebin RvTab.
Import ListNotations.
Open Scope string_scope.

Notation fmt := (dict string).

(** plot/__init__.py:15-21 *)
Definition F_j : fmt := [("color", "k"); ("fmt", "o"); ("label", "HIRES"); ("mew", "1")].
Definition F_k : fmt := [("color", "k"); ("fmt", "s"); ("mfc", "none"); ("label", "HIRES pre 2004"); ("mew", "1")].
Definition F_a : fmt := [("color", "g"); ("fmt", "d"); ("label", "APF")].
Definition F_pfs : fmt := [("color", "magenta"); ("fmt", "p"); ("label", "PFS")].
Definition F_h : fmt := [("color", "firebrick"); ("fmt", "s"); ("label", "HARPS")].
Definition F_hn : fmt := [("color", "firebrick"); ("fmt", "^"); ("label", "HARPS-N")].
Definition F_l : fmt := [("color", "g"); ("fmt", "*"); ("label", "LICK")].
(** telfmts_default, plot/__init__.py:14-36 *)
Definition telfmts_default : dict fmt :=
  [("j", F_j); ("k", F_k); ("a", F_a); ("pfs", F_pfs); ("h", F_h); ("harps-n", F_hn); ("l", F_l);
   ("lick", F_l); ("hires_rj", F_j); ("hires", F_j); ("hires_rk", F_k); ("apf", F_a); ("harps", F_h);
   ("LICK", F_l); ("HIRES_RJ", F_j); ("HIRES", F_j); ("HIRES_RK", F_k); ("APF", F_a); ("HARPS", F_h);
   ("HARPS-N", F_hn); ("PFS", F_pfs)].
(** plot/__init__.py:43 *)
Definition default_colors : list string :=
  ["orange"; "purple"; "magenta"; "pink"; "green"; "grey"; "red"; "blue"; "yellow"].

(** One call of pl.errorbar: instrument, x, y, yerr and keywords.  [X] is the type of abscissae (times or phases). *)
Record series (X : Type) := mkSer { s_tel : string; s_x : list X; s_y : list R; s_e : list R; s_kw : fmt }.
Arguments mkSer {X}. Arguments s_tel {X}. Arguments s_x {X}. Arguments s_y {X}. Arguments s_e {X}. Arguments s_kw {X}.

(** the text of line 83, '\nRMS={:.2f} {:s}' *)
Definition rms_text (r : R) : string :=
  String (Ascii.ascii_of_nat 10) ("RMS=" ++ fixed 2 r ++ " m s$^{\mathregular{-1}}$").

(** telplot: the keywords of pl.errorbar, plot/__init__.py:63-83; lw is 1.0 in every call *)
Definition telplot_kw (tel : string) (telfmt : fmt) (rms : R) : res fmt :=
  let kw := [("fmt", "o"); ("capsize", "0"); ("mew", "0"); ("ecolor", "0.6"); ("lw", "1.0"); ("color", "orange")] in
  let telfmt := match telfmt, dget telfmts_default tel with [], Some d => d | _, _ => telfmt end in
  let kw := dupdate kw telfmt in
  do kw <- (if dmem kw "label" then Ok kw
            else match dget telfmts_default tel with
                 | Some d => do l <- dget_res d "label"; Ok (dset kw "label" l)
                 | None => Ok (dset kw "label" tel)
                 end);
  if reqb rms 0 then Ok kw else do l <- dget_res kw "label"; Ok (dset kw "label" (l ++ rms_text rms)).

(** default_colors[ci] *)
Definition color_at (ci : nat) : res string := match nth_error default_colors ci with Some c => Ok c | None => Err IndexError end.

(** the format of one instrument, plot/__init__.py:116-127: new telfmts (an entry without colour is
    changed in place), new ci, format *)
Definition choose_fmt (telfmts : dict fmt) (ci : nat) (t : string) : res (dict fmt * nat * fmt) :=
  match dget telfmts t with
  | Some f =>
      if dmem f "color" then Ok (telfmts, ci, f)
      else do c <- color_at ci; let f := dset f "color" c in Ok (dset telfmts t f, S ci, f)
  | None =>
      if dmem telfmts_default t then Ok (telfmts, ci, [])
      else do c <- color_at ci; Ok (telfmts, S ci, [("color", c)])
  end.

(** one instrument, plot/__init__.py:111-134; [rms_values] is [] for False *)
Definition mtel_step {X} (x : list X) (y e : list R) (tel : list string) (rms_values : dict R)
    (st : dict fmt * nat * list (series X)) (t : string) : res (dict fmt * nat * list (series X)) :=
  let '(telfmts, ci, out) := st in
  if Nat.eqb (length x) (length tel) && Nat.eqb (length y) (length tel) && Nat.eqb (length e) (length tel) then
    do (telfmts, ci, f) <- choose_fmt telfmts ci t;
    do rms <- match rms_values with [] => Ok 0%R | _ => dget_res rms_values t end;
    do kw <- telplot_kw t f rms;
    Ok (telfmts, ci, (out ++ [mkSer t (select tel t x) (select tel t y) (select tel t e) kw])%list)
  else Err IndexError.

(** mtelplot: the user's formats afterwards, and the calls of pl.errorbar *)
Definition mtelplot {X} (x : list X) (y e : list R) (tel : list string) (telfmts : dict fmt) (rms_values : dict R)
  : res (dict fmt * list (series X)) :=
  do (telfmts, _, out) <- for_each (np_unique tel) (mtel_step x y e tel rms_values) (telfmts, 0%nat, []);
  Ok (telfmts, out).
