(** Vocabulary for C93. *)
From Coq Require Import String Ascii Arith Bool List.
From Verif Require Import Py CompText.
Import ListNotations.
Open Scope string_scope.

(** a number: finite, written with digits, or one of the three others *)
Definition finite_text (t : string) : Prop := t <> "" /\ forall c, In c (list_ascii_of_string t) -> In c (list_ascii_of_string "0123456789e.+-").
Definition number_text (t : string) : Prop := finite_text t \/ t = "inf" \/ t = "-inf" \/ t = "nan".
Definition numbers_of (l : list model) (t : string) : Prop := exists m k d, In m l /\ In (k, (Num t, d)) m.
Definition numbers_ok (l : list model) : Prop := forall t, numbers_of l t -> number_text t.
(** no line ends in the names, labels and descriptions *)
Definition texts_of (l : list model) (s : string) : Prop :=
  exists m k c d, In m l /\ In (k, (c, d)) m /\ (s = k \/ s = d \/ exists ls, c = Labels ls /\ In s ls).
Definition one_line (s : string) : Prop := forall c, In c (list_ascii_of_string s) -> c <> "010"%char /\ c <> "013"%char.
Definition lines_ok (l : list model) : Prop := forall s, texts_of l s -> one_line s.
