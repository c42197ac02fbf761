(** Property theorems C93: from `radvel ic` to the tables. *)
From Coq Require Import String Ascii Arith Bool List.
From Verif Require Import Py Status StatusSpec CompText CompTextSpec CompTextThms.
Import ListNotations.
Open Scope string_scope.

(** * C93 *)
(** What eval() makes of the text is the comparison, if no value is nan.  Missing from the full statement: that condition
    (C93_nan_refuted). *)
Theorem C93_read_back_partial : forall l, numbers_ok l -> ~ numbers_of l "nan" -> read_back (saved l) = Val l "".
Proof. exact kept. Qed.
Print Assumptions C93_read_back_partial.

Example C93_read_back_partial_ex :
  saved [[("Free Params", (Labels ["$K_{b}$"; "$\dot{\gamma}$"], "The star's")); ("AICc", (Num "inf", "x"))]; [("RMS", (Num "-1.5e-07", ""))]] =
    "[OrderedDict([('Free Params', (['$K_{b}$', '$\\dot{\\gamma}$'], ""The star's"")), ('AICc', (inf, 'x'))]), OrderedDict([('RMS', (-1.5e-07, ''))])]" /\
  read_back (saved [[("Free Params", (Labels ["$K_{b}$"; "$\dot{\gamma}$"], "The star's")); ("AICc", (Num "inf", "x"))]; [("RMS", (Num "-1.5e-07", ""))]]) =
    Val [[("Free Params", (Labels ["$K_{b}$"; "$\dot{\gamma}$"], "The star's")); ("AICc", (Num "inf", "x"))]; [("RMS", (Num "-1.5e-07", ""))]] "".
Proof. split; reflexivity. Qed.

(** The same through the status file, whatever it holds before, for texts of one line. *)
Theorem C93_status_file_partial : forall f c0 l, load_status f = Ok c0 -> numbers_ok l -> lines_ok l -> ~ numbers_of l "nan" ->
  exists c, save_status f "ic_compare" [("ic", saved l)] = (Some (write c), Ok tt) /\ load_status (Some (write c)) = Ok c /\
    exists s, status c "ic_compare" "ic" = Some s /\ read_back s = Val l "".
Proof. exact through_file. Qed.
Print Assumptions C93_status_file_partial.

Example C93_status_file_partial_ex : exists c0, load_status None = Ok c0 /\ numbers_ok [[("RMS", (Num "2.3", "m"))]] /\ lines_ok [[("RMS", (Num "2.3", "m"))]] /\ ~ numbers_of [[("RMS", (Num "2.3", "m"))]] "nan".
Proof.
  eexists. split; [reflexivity|]. split; [|split].
  - intros t (m & k & d & [<-|[]] & [E|[]]). injection E as <- <- <-. left. split; [discriminate|]. intros c H. cbn in H. decompose [or] H; try contradiction; subst; cbn; tauto.
  - intros s (m & k & c & d & [<-|[]] & [E|[]] & T). injection E as <- <- <-. destruct T as [-> | [-> | (ls & T & _)]]; [| |discriminate]; intros c H; cbn in H; decompose [or] H; try contradiction; subst; split; discriminate.
  - intros (m & k & d & [<-|[]] & [E|[]]). discriminate.
Qed.

(** With a value that is not a number the tables and the report raise NameError, since driver.py imports inf but not nan. *)
Theorem C93_nan_refuted : forall l, numbers_ok l -> numbers_of l "nan" -> read_back (saved l) = NameError.
Proof. exact lost. Qed.
Print Assumptions C93_nan_refuted.

Example C93_nan_refuted_ex : read_back (saved [[("RMS", (Num "2.3", "m"))]; [("N", (Num "5", "n")); ("BIC", (Num "nan", "b"))]]) = NameError.
Proof. reflexivity. Qed.
