(** Spec for C48: formatted keyword lists and the texts of numbers. *)
From Coq Require Import String Ascii ZArith Bool List.
From Verif Require Import Py Mass Kwargs.
Import ListNotations.
Open Scope string_scope.

(** "k1=v1 k2=v2 ..." *)
Definition pair_text (kv : string * string) : string := fst kv ++ "=" ++ snd kv.
Definition format (l : list (string * string)) : string := String.concat " " (map pair_text l).
Fixpoint occurs (c : ascii) (s : string) : Prop := match s with "" => False | String a r => a = c \/ occurs c r end.
Definition clean (s : string) : Prop := ~ occurs " " s /\ ~ occurs "=" s.
(** the last value given for a key *)
Fixpoint last_value (l : list (string * string)) (k : string) : option string :=
  match l with
  | [] => None
  | (q, v) :: r => match last_value r k with Some x => Some x | None => if String.eqb q k then Some v else None end
  end.

(** decimal digits and what they denote *)
Definition digit_is (c : ascii) (d : Z) : Prop := In (c, d)
  [("0"%char, 0%Z); ("1"%char, 1%Z); ("2"%char, 2%Z); ("3"%char, 3%Z); ("4"%char, 4%Z); ("5"%char, 5%Z); ("6"%char, 6%Z); ("7"%char, 7%Z); ("8"%char, 8%Z); ("9"%char, 9%Z)].
Fixpoint places (l : list Z) : Z := match l with [] => 0 | d :: r => d * 10 ^ Z.of_nat (length r) + places r end.
Inductive digits : string -> list Z -> Prop :=
| dg_nil : digits "" []
| dg_cons c d s l : digit_is c d -> digits s l -> digits (String c s) (d :: l).
Definition blank (s : string) : Prop := forall c, occurs c s -> In (nat_of_ascii c) [9; 10; 11; 12; 13; 32]%nat.
Definition signed (s : string) (neg : bool) : Prop := (s = "-" /\ neg = true) \/ ((s = "" \/ s = "+") /\ neg = false).

(** integer literals: digits, single underscores between them *)
Inductive int_lit : string -> list Z -> Prop :=
| il_one c d : digit_is c d -> int_lit (String c "") [d]
| il_next c d s l : digit_is c d -> int_lit s l -> int_lit (String c s) (d :: l)
| il_bar c d s l : digit_is c d -> int_lit s l -> int_lit (String c (String "_" s)) (d :: l).
Definition int_text (s : string) (z : Z) : Prop :=
  exists w1 sg neg body l w2, s = w1 ++ (sg ++ body) ++ w2 /\ blank w1 /\ blank w2 /\ signed sg neg /\ int_lit body l /\
    z = if neg then (- places l)%Z else places l.

(** float literals *)
Definition frac (s : string) (b : list Z) : Prop := (s = "" /\ b = []) \/ exists p, s = String "." p /\ digits p b.
Definition expo (s : string) (e : Z) : Prop :=
  (s = "" /\ e = 0%Z) \/
  exists c sg neg p l, (c = "e"%char \/ c = "E"%char) /\ s = String c (sg ++ p) /\ signed sg neg /\ digits p l /\ l <> [] /\
    e = if neg then (- places l)%Z else places l.
Definition decimal (s : string) (m e : Z) : Prop :=
  exists p f x a b ex, s = p ++ f ++ x /\ digits p a /\ frac f b /\ (a ++ b)%list <> [] /\ expo x ex /\
    m = places (a ++ b) /\ e = (ex - Z.of_nat (length b))%Z.
Definition float_lit (s : string) (x : number) : Prop :=
  exists sg neg t, s = sg ++ t /\ signed sg neg /\
    (((lower t = "inf" \/ lower t = "infinity") /\ x = Infinity neg) \/ (lower t = "nan" /\ x = NotANumber) \/
     exists m e, decimal t m e /\ x = Dec neg m e).
(** underscores between digits *)
Inductive under : string -> string -> Prop :=
| un_nil : under "" ""
| un_char c s t : c <> "_"%char -> under s t -> under (String c s) (String c t)
| un_bar c d a b s t : digit_is c a -> digit_is d b -> under (String d s) (String d t) -> under (String c (String "_" (String d s))) (String c (String d t)).
Definition float_text (s : string) (x : number) : Prop :=
  exists w1 u t w2, s = w1 ++ u ++ w2 /\ blank w1 /\ blank w2 /\ under u t /\ float_lit t x.
