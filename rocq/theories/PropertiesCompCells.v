(** Property C96: the columns of the comparison table. *)
From Coq Require Import Reals String Ascii Arith Bool List.
From Verif Require Import Py PyFloat PriorTextSpec CompTable CompCells CompCellsSpec CompCellsThms.
Import ListNotations.
Open Scope string_scope.

(** * C96 *)
(** A text has its columns in one way. *)
Theorem C96_one_way : forall s cs cs', cs <> [] -> cs' <> [] -> columns s cs -> columns s cs' -> cs = cs'.
Proof. exact col_unique. Qed.
Print Assumptions C96_one_way.

(** Every row of the table, whatever its message, has a column for each entry of its model, in order, reading what the
    entry says, between the message and the difference of its AICc and that of one model. *)
Theorem C96_rows_partial : forall show_int two, (forall n, free "&" (show_int n)) -> (forall x, free "&" (two x)) ->
  forall (ds : list (ext * entries)) rows, Forall (fun d => plain_entries (snd d)) ds ->
  tab_comparison two (Some (map (fun d => mkStats (fst d) (cells show_int two (snd d))) ds)) = Ok (Some rows) ->
  exists low d0, In (low, d0) ds /\ forall r, In r rows -> r = "\hline" \/ exists a d p texts, In (a, d) ds /\ Forall2 (fun kv t => reads show_int two (snd kv) t) d texts /\
      columns r (padr p :: map pad texts ++ [padl (two (ext_sub a low))])%list.
Proof. exact table_columns. Qed.
Print Assumptions C96_rows_partial.

Example C96_rows_partial_ex : plain_entries [("Free Params", VList ["$K_{b}$"; "$e_{b}$"]); ("RMS", VFloat (Fin 2)); ("AICc", VFloat (Fin 7))] /\
  cells (fun _ => "1") (fun _ => "2.00") [("Free Params", VList ["$K_{b}$"; "$e_{b}$"]); ("RMS", VFloat (Fin 2))] = Ok " & $K_{b}$, $e_{b}$, {$\gamma$} & 2.00" /\
  columns "AICc Favored Model & $K_{b}$, {$\gamma$} & 0.00" ["AICc Favored Model "; " $K_{b}$, {$\gamma$} "; " 0.00"].
Proof.
  assert (forall s, List.existsb (Ascii.eqb "&") (list_ascii_of_string s) = false -> free "&" s) as H.
  { intros s E I. assert (List.existsb (Ascii.eqb "&") (list_ascii_of_string s) = true) as K by (apply existsb_exists; exists "&"%char; auto). congruence. }
  split; [|split; [reflexivity|split; [reflexivity|]]]; repeat constructor; now apply H.
Qed.

(** A row is made unless some value is of none of the types known, and then there is ValueError. *)
Theorem C96_row_made : forall show_int two d, (exists s, cells show_int two d = Ok s) /\ ~ In VOther (map snd d) \/
  cells show_int two d = Err ValueError /\ In VOther (map snd d).
Proof. exact other_refused. Qed.
Print Assumptions C96_row_made.

Example C96_row_made_ex : cells (fun _ => "1") (fun _ => "2.00") [("N", VInt 1); ("x", VOther)] = Err ValueError.
Proof. reflexivity. Qed.

(** The head has the name of each entry over its column: the free parameters come first among the entries. *)
Theorem C96_head : forall keys, ~ In "Free Params" keys -> Forall (free "&") keys ->
  columns (head ("Free Params" :: keys)) ("\tablehead{\colhead{AICc Qualitative Comparison} " ::
    map pad ("\colhead{Free Parameters}" :: map (fun k => "\colhead{" ++ k ++ "}")%string keys) ++ [" \colhead{$\Delta$AICc}}"])%list.
Proof. exact head_columns. Qed.
Print Assumptions C96_head.

Example C96_head_ex : ~ In "Free Params" ["RMS"; "AICc"] /\
  head ["Free Params"; "AICc"] = "\tablehead{\colhead{AICc Qualitative Comparison} & \colhead{Free Parameters} & \colhead{AICc} & \colhead{$\Delta$AICc}}".
Proof. split; [intros [E|[E|[]]]; discriminate|reflexivity]. Qed.

(** There are as many column definitions as columns. *)
Theorem C96_letters : forall keys, keys <> [] -> String.length (col_letters keys) = (List.length keys + 2)%nat.
Proof. exact letters_length. Qed.
Print Assumptions C96_letters.

Example C96_letters_ex : coldefs ["Free Params"; "RMS"; "AICc"] = "\begin{deluxetable*}{llrrr}".
Proof. reflexivity. Qed.

(** Full claim: the column of free parameters lists those of the model.  False: it lists offsets after them whatever they
    are, also for a model with none free. *)
Theorem C96_gamma_refuted : forall show_int two l, exists s, cell show_int two (VList l) = Ok (s ++ "{$\gamma$}").
Proof. exact gamma_always. Qed.
Print Assumptions C96_gamma_refuted.

Example C96_gamma_refuted_ex : cell (fun _ => "1") (fun _ => "2.00") (VList []) = Ok " & {$\gamma$}".
Proof. reflexivity. Qed.
