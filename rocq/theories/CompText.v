(** Model of the way of a model comparison from `radvel ic` to the tables and the report: it is written into the status file
    as str(list), driver.py:458-459, and read with eval(), driver.py:513, 733.  Its shape is that of fitting.py:106-166.

    Numbers are the texts Python writes for them (repr), which it reads back as the same number.  The names eval() finds are
    those of driver.py: OrderedDict (line 17) and inf (line 21).  Simplified: characters outside of printable ASCII are not
    escaped; eval() is modelled on texts of this shape only, and any other text is [Wrong]; a text of the characters of
    numbers is taken for a number; numpy before version 2, whose numbers are written like Python's. *)
From Coq Require Import String Ascii Arith Bool List.
From Verif Require Import Py.
Import ListNotations.
Open Scope string_scope.

(** a value with its description, under its name *)
Inductive cell := Labels (l : list string) | Num (text : string).
Definition row := (string * (cell * string))%type.
Definition model := list row.

(** ** repr *)
Definition apo : ascii := "'".
Definition quo : ascii := """".
Definition bsl : ascii := "\".
Fixpoint has (c : ascii) (s : string) : bool := match s with "" => false | String a r => Ascii.eqb a c || has c r end.
Definition quote_of (s : string) : ascii := if has apo s && negb (has quo s) then quo else apo.
Fixpoint escape (q : ascii) (s : string) : string :=
  match s with
  | "" => ""
  | String c r => if Ascii.eqb c bsl || Ascii.eqb c q then String bsl (String c (escape q r)) else String c (escape q r)
  end.
Definition repr_str (s : string) : string := let q := quote_of s in String q (escape q s ++ String q "").
Definition repr_list {A} (f : A -> string) (l : list A) : string := "[" ++ String.concat ", " (map f l) ++ "]".
Definition repr_cell (c : cell) : string := match c with Labels l => repr_list repr_str l | Num t => t end.
Definition repr_row (r : row) : string := "(" ++ repr_str (fst r) ++ ", (" ++ repr_cell (fst (snd r)) ++ ", " ++ repr_str (snd (snd r)) ++ "))".
Definition repr_model (m : model) : string := "OrderedDict(" ++ repr_list repr_row m ++ ")".
(** str(statsdictlist) *)
Definition saved (l : list model) : string := repr_list repr_model l.

(** ** eval *)
Inductive ev (A : Type) := Val (a : A) (rest : string) | NameError | Wrong.
Arguments Val {A} a rest. Arguments NameError {A}. Arguments Wrong {A}.
Definition andthen {A B} (x : ev A) (k : A -> string -> ev B) : ev B :=
  match x with Val a r => k a r | NameError => NameError | Wrong => Wrong end.
(** this text, then the rest *)
Fixpoint expect {A} (t s : string) (k : string -> ev A) : ev A :=
  match t, s with
  | "", _ => k s
  | String a t', String b s' => if Ascii.eqb a b then expect t' s' k else Wrong
  | String _ _, "" => Wrong
  end.
(** the inside of a string literal *)
Fixpoint unescape (q : ascii) (s : string) : ev string :=
  match s with
  | "" => Wrong
  | String c r =>
      if Ascii.eqb c q then Val "" r
      else if Ascii.eqb c bsl then
        match r with
        | String c2 r2 => if Ascii.eqb c2 bsl || Ascii.eqb c2 apo || Ascii.eqb c2 quo
                          then andthen (unescape q r2) (fun t rest => Val (String c2 t) rest) else Wrong
        | "" => Wrong
        end
      else andthen (unescape q r) (fun t rest => Val (String c t) rest)
  end.
Definition eval_str (s : string) : ev string :=
  match s with String q r => if Ascii.eqb q apo || Ascii.eqb q quo then unescape q r else Wrong | "" => Wrong end.
(** the characters of numbers and names *)
Definition word_char (c : ascii) : bool :=
  let n := nat_of_ascii c in (Nat.leb 48 n && Nat.leb n 57) || (Nat.leb 97 n && Nat.leb n 122) || Ascii.eqb c "." || Ascii.eqb c "+" || Ascii.eqb c "-".
Definition digit_char (c : ascii) : bool :=
  let n := nat_of_ascii c in (Nat.leb 48 n && Nat.leb n 57) || Ascii.eqb c "e" || Ascii.eqb c "." || Ascii.eqb c "+" || Ascii.eqb c "-".
Fixpoint all_chars (f : ascii -> bool) (s : string) : bool := match s with "" => true | String c r => f c && all_chars f r end.
Fixpoint word (s : string) : string * string :=
  match s with String c r => if word_char c then let '(w, rest) := word r in (String c w, rest) else ("", s) | "" => ("", "") end.
Definition eval_num (s : string) : ev cell :=
  let '(w, rest) := word s in
  if String.eqb w "inf" || String.eqb w "-inf" then Val (Num w) rest
  else if String.eqb w "nan" then NameError
  else if negb (String.eqb w "") && all_chars digit_char w then Val (Num w) rest else Wrong.
Section List.
  Context {A : Type} (p : string -> ev A).
  Fixpoint items (fuel : nat) (s : string) : ev (list A) :=
    match fuel with
    | 0 => Wrong
    | S n => andthen (p s) (fun a rest =>
        match rest with
        | String c r =>
            if Ascii.eqb c "]" then Val [a] r
            else expect ", " rest (fun r1 => andthen (items n r1) (fun l rest1 => Val (a :: l) rest1))
        | "" => Wrong
        end)
    end.
  Definition eval_list (s : string) : ev (list A) :=
    expect "[" s (fun r => match r with String c r1 => if Ascii.eqb c "]" then Val [] r1 else items (String.length r) r | "" => Wrong end).
End List.
Definition eval_cell (s : string) : ev cell :=
  match s with
  | String c _ => if Ascii.eqb c "[" then andthen (eval_list eval_str s) (fun l r => Val (Labels l) r) else eval_num s
  | "" => Wrong
  end.
Definition eval_row (s : string) : ev row :=
  expect "(" s (fun r => andthen (eval_str r) (fun k r => expect ", (" r (fun r => andthen (eval_cell r) (fun c r =>
    expect ", " r (fun r => andthen (eval_str r) (fun d r => expect "))" r (fun r => Val (k, (c, d)) r))))))).
Definition eval_model (s : string) : ev model :=
  expect "OrderedDict(" s (fun r => andthen (eval_list eval_row r) (fun m r => expect ")" r (fun r => Val m r))).
Definition read_back (s : string) : ev (list model) := eval_list eval_model s.
