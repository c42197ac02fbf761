(** Proofs of C96. *)
From Coq Require Import Reals String Ascii Arith Bool Lia List.
From Verif Require Import Py PyFloat PriorTextSpec PriorTextProofs CompTable CompCells CompCellsSpec.
Import ListNotations.
Open Scope string_scope.

Ltac freely := let K := fresh "K" in intro K; cbn in K; decompose [or] K; try discriminate; contradiction.
Lemma col_one a : free "&" a -> columns a [a].
Proof. intro F. split; [reflexivity|now constructor]. Qed.
Lemma col_cons a s cs : free "&" a -> cs <> [] -> columns s cs -> columns (a ++ "&" ++ s) (a :: cs).
Proof. intros F N [-> H]. split; [|now constructor]. destruct cs; [contradiction|reflexivity]. Qed.
Lemma col_unique s cs cs' : cs <> [] -> cs' <> [] -> columns s cs -> columns s cs' -> cs = cs'.
Proof.
  intros N N' [-> F] [E F']. revert cs' N' E F'. induction F as [|a cs Fa F IH]; intros [|b cs'] N' E F'; try contradiction.
  inversion F' as [|? ? Fb Fr]; subst. destruct cs as [|c cs], cs' as [|c' cs'].
  - cbn in E. now subst.
  - exfalso. cbn in E. subst a. apply Fa. clear. induction b; [now left|now right].
  - exfalso. cbn in E. subst b. apply Fb. clear. induction a; [now left|now right].
  - change (a ++ String "&" (String.concat "&" (c :: cs)) = b ++ String "&" (String.concat "&" (c' :: cs'))) in E. apply cut in E as [-> E]; auto. f_equal. apply IH; [discriminate|discriminate|exact E|exact Fr].
Qed.

Section Rows.
  Variables (show_int : nat -> string) (two : ext -> string).
  Hypothesis FI : forall n, free "&" (show_int n).
  Hypothesis FT : forall x, free "&" (two x).

  Lemma items_are l : items l ++ " {$\gamma$}" = " " ++ String.concat ", " (l ++ ["{$\gamma$}"])%list.
  Proof.
    induction l as [|x l IH]; [reflexivity|]. cbn [items]. change ((x :: l) ++ ["{$\gamma$}"])%list with (x :: (l ++ ["{$\gamma$}"]))%list.
    assert (String.concat ", " (x :: (l ++ ["{$\gamma$}"]))%list = x ++ ", " ++ String.concat ", " (l ++ ["{$\gamma$}"])%list) as -> by (destruct l; reflexivity).
    rewrite !append_ass, IH. reflexivity.
  Qed.
  Lemma free_concat sep : free "&" sep -> forall l, Forall (free "&") l -> free "&" (String.concat sep l).
  Proof.
    intros S l F. induction F as [|x l X F IH]; [intros []|]. destruct l as [|y l]; [exact X|]. change (free "&" (x ++ sep ++ String.concat sep (y :: l))). rewrite !free_app. auto.
  Qed.
  Lemma reads_free v t : plain_value v -> reads show_int two v t -> free "&" t.
  Proof.
    destruct v; cbn; intros P R; try contradiction; subst t; auto. apply free_concat; [freely|]. apply Forall_app. split; [exact P|]. repeat constructor. freely.
  Qed.
  Lemma cell_reads v : plain_value v -> exists t, cell show_int two v = Ok (" & " ++ t) /\ reads show_int two v t.
  Proof.
    destruct v; cbn [plain_value cell reads]; intro P; try contradiction; try (eexists; split; reflexivity).
    eexists. split; [|reflexivity]. rewrite items_are. reflexivity.
  Qed.
  Lemma row_columns delta d : free "&" delta -> plain_entries d -> exists s texts, cells show_int two d = Ok s /\ Forall2 (fun kv t => reads show_int two (snd kv) t) d texts /\
    forall p, free "&" p -> columns (p ++ s ++ " & " ++ delta) (padr p :: map pad texts ++ [padl delta])%list.
  Proof.
    intros D P. induction P as [|[k v] d [_ V] P (s & texts & E & R & C)].
    - exists "", []. split; [reflexivity|]. split; [constructor|]. intros p Fp. cbn [map app].
      replace (p ++ "" ++ " & " ++ delta) with ((p ++ " ") ++ "&" ++ (" " ++ delta)) by (rewrite append_ass; reflexivity).
      apply (col_cons (p ++ " ")); [rewrite free_app; split; [exact Fp|freely]|discriminate|]. apply (col_one (" " ++ delta)). rewrite free_app. split; [freely|exact D].
    - cbn [snd] in V. destruct (cell_reads v V) as (t & Ec & Rt). exists ((" & " ++ t) ++ s), (t :: texts). split; [cbn [cells]; rewrite Ec; cbn [bind]; rewrite E; reflexivity|]. split; [now constructor|].
      intros p Fp. replace (p ++ ((" & " ++ t) ++ s) ++ " & " ++ delta) with ((p ++ " ") ++ "&" ++ ((" " ++ t) ++ s ++ " & " ++ delta)) by (rewrite !append_ass; reflexivity).
      cbn [map]. change (padr p :: (pad t :: map pad texts) ++ [padl delta])%list with (padr p :: (padr (padl t) :: map pad texts ++ [padl delta]))%list.
      apply (col_cons (p ++ " ")); [rewrite free_app; split; [exact Fp|freely]|discriminate|]. apply (C (" " ++ t)). rewrite free_app. split; [freely|]. now apply (reads_free v).
  Qed.

  (** every row of the table *)
  Lemma in_insert x y l : In x (insert y l) <-> x = y \/ In x l.
  Proof. induction l as [|z l IH]; cbn; [intuition congruence|]. destruct (ext_ltb (s_aicc z) (s_aicc y)); cbn; rewrite ?IH; intuition congruence. Qed.
  Lemma in_sort x l : In x (sort l) <-> In x l.
  Proof. induction l as [|y l IH]; cbn; [tauto|]. rewrite in_insert, IH. intuition congruence. Qed.
  Lemma message_free n : free "&" (nth n messages "").
  Proof. destruct n as [|[|[|[|n]]]]; cbn; try freely. destruct n; freely. Qed.
  Lemma rows_shape low : forall l i tr rows, table_rows two low l i tr = Ok rows -> forall r, In r rows -> r = "\hline" \/
    exists st p s, In st l /\ s_cells st = Ok s /\ free "&" p /\ r = p ++ s ++ " & " ++ two (ext_sub (s_aicc st) low).
  Proof.
    induction l as [|st l IH]; intros i tr rows E r I; cbn [table_rows] in E; [injection E as <-; destruct I|].
    destruct (s_cells st) as [c|] eqn:Ec; [cbn [bind] in E|discriminate].
    set (up := climb (ext_sub (s_aicc st) low) (skipn tr levels)) in *.
    destruct (table_rows two low l (S i) (tr + up)) as [rest|] eqn:Er; [cbn [bind] in E|discriminate]. injection E as <-.
    apply in_app_or in I as [I|[I|I]].
    - left. destruct (match up with 0%nat => Nat.eqb i 1 | S _ => true end); [destruct I as [<-|[]]; reflexivity|destruct I].
    - right. subst r. set (row := if Nat.eqb i 0 then _ else _). assert (exists p, free "&" p /\ row = p ++ c ++ " & " ++ two (ext_sub (s_aicc st) low)) as (p & Fp & Ep).
      { unfold row. destruct (Nat.eqb i 0); [exists "AICc Favored Model"|exists ""]; (split; [freely|reflexivity]). }
      destruct up as [|u].
      + exists st, p, c. repeat split; auto. now left.
      + exists st, (nth (tr + S u - 1) messages "" ++ p), c. split; [now left|]. split; [exact Ec|]. split; [rewrite free_app; split; [apply message_free|exact Fp]|]. now rewrite Ep, append_ass.
    - destruct (IH _ _ _ Er r I) as [H|(st' & H)]; [now left|]. right. exists st'. destruct H as (p & s & A & B). exists p, s. split; [now right|exact B].
  Qed.
  Lemma table_columns (ds : list (ext * entries)) rows : Forall (fun d => plain_entries (snd d)) ds ->
    tab_comparison two (Some (map (fun d => mkStats (fst d) (cells show_int two (snd d))) ds)) = Ok (Some rows) ->
    exists low d0, In (low, d0) ds /\ forall r, In r rows -> r = "\hline" \/ exists a d p texts, In (a, d) ds /\ Forall2 (fun kv t => reads show_int two (snd kv) t) d texts /\
      columns r (padr p :: map pad texts ++ [padl (two (ext_sub a low))])%list.
  Proof.
    intros P E. unfold tab_comparison in E. set (l := map _ ds) in *. destruct (sort l) as [|st sl] eqn:Es; [discriminate|].
    destruct (table_rows two (s_aicc st) (firstn (if Nat.ltb 50 (length l) then 50%nat else length l) (st :: sl)) 0 0) as [rs|] eqn:Er; [cbn [bind] in E|discriminate]. injection E as <-.
    assert (In st (sort l)) as S0 by (rewrite Es; now left). apply (proj1 (in_sort _ _)) in S0. unfold l in S0. apply in_map_iff in S0 as ((low & d0) & E0 & D0).
    exists low, d0. split; [exact D0|]. intros r I. destruct (rows_shape _ _ _ _ _ Er r I) as [H|(st' & p & s & A & B & Fp & ->)]; [now left|]. right.
    assert (In st' (sort l)) as S. { rewrite Es. revert A. match goal with |- In _ (firstn ?m _) -> _ => generalize m end. intros n A. rewrite <- (firstn_skipn n (st :: sl)). apply in_or_app. now left. }
    apply (proj1 (in_sort _ _)) in S. unfold l in S. apply in_map_iff in S as ((a & d) & <- & D). cbn [s_cells snd] in B.
    rewrite Forall_forall in P. rewrite <- E0. cbn [s_aicc fst]. destruct (row_columns (two (ext_sub a low)) d (FT _) (P _ D)) as (s' & texts & E' & R & C). rewrite E' in B. injection B as <-.
    exists a, d, p, texts. split; [exact D|]. split; [exact R|]. now apply C.
  Qed.
  Lemma row_made d : plain_entries d -> exists s, cells show_int two d = Ok s.
  Proof. intro P. destruct (row_columns "" d ltac:(intros []) P) as (s & _ & E & _). eauto. Qed.
End Rows.

Lemma head_columns keys : ~ In "Free Params" keys -> Forall (free "&") keys ->
  columns (head ("Free Params" :: keys)) ("\tablehead{\colhead{AICc Qualitative Comparison} " :: map pad ("\colhead{Free Parameters}" :: map (fun k => "\colhead{" ++ k ++ "}")%string keys) ++ [" \colhead{$\Delta$AICc}}"])%list.
Proof.
  intros N F. unfold head. cbn [head_cells String.eqb Ascii.eqb Bool.eqb].
  assert (forall p, free "&" p -> columns (p ++ head_cells keys ++ " & \colhead{$\Delta$AICc}" ++ "}") (padr p :: map pad (map (fun k => "\colhead{" ++ k ++ "}")%string keys) ++ [" \colhead{$\Delta$AICc}}"])%list) as H.
  { induction F as [|k keys Fk F IH]; intros p Fp.
    - cbn [head_cells map app]. replace (p ++ "" ++ " & \colhead{$\Delta$AICc}" ++ "}") with ((p ++ " ") ++ "&" ++ " \colhead{$\Delta$AICc}}") by (rewrite append_ass; reflexivity).
      apply (col_cons (p ++ " ")); [rewrite free_app; split; [exact Fp|freely]|discriminate|]. apply col_one. freely.
    - cbn [head_cells]. destruct (String.eqb_spec k "Free Params") as [->|_]; [exfalso; apply N; now left|].
      replace (p ++ (" & \colhead{" ++ k ++ "}" ++ head_cells keys) ++ " & \colhead{$\Delta$AICc}" ++ "}") with ((p ++ " ") ++ "&" ++ ((" \colhead{" ++ k ++ "}") ++ head_cells keys ++ " & \colhead{$\Delta$AICc}" ++ "}")) by (rewrite !append_ass; reflexivity).
      cbn [map]. replace (pad ("\colhead{" ++ k ++ "}")) with ((" \colhead{" ++ k ++ "}") ++ " ") by (unfold pad; rewrite !append_ass; reflexivity).
      apply (col_cons (p ++ " ")); [rewrite free_app; split; [exact Fp|freely]|discriminate|]. apply IH; [intro K; apply N; now right|]. rewrite !free_app. split; [freely|]. split; [exact Fk|freely]. }
  change (columns ("\tablehead{\colhead{AICc Qualitative Comparison} " ++ "&" ++ (" \colhead{Free Parameters}" ++ head_cells keys ++ " & \colhead{$\Delta$AICc}" ++ "}"))
    ("\tablehead{\colhead{AICc Qualitative Comparison} " :: (padr " \colhead{Free Parameters}" :: map pad (map (fun k => "\colhead{" ++ k ++ "}")%string keys) ++ [" \colhead{$\Delta$AICc}}"])%list)).
  apply col_cons; [freely|discriminate|]. apply H. freely.
Qed.
Lemma times_length n : String.length (times n "r") = n.
Proof. induction n; cbn; congruence. Qed.
Lemma letters_length keys : keys <> [] -> String.length (col_letters keys) = (List.length keys + 2)%nat.
Proof.
  intro N. unfold col_letters. assert (forall a b, String.length (a ++ b) = (String.length a + String.length b)%nat) as L by (induction a; intro; cbn; congruence).
  rewrite !L, times_length. cbn. destruct keys; [contradiction|cbn; lia].
Qed.
Lemma gamma_always show_int two l : exists s, cell show_int two (VList l) = Ok (s ++ "{$\gamma$}").
Proof. exists (" &" ++ items l ++ " "). cbn [cell]. rewrite !append_ass. reflexivity. Qed.
Lemma other_refused show_int two d : (exists s, cells show_int two d = Ok s) /\ ~ In VOther (map snd d) \/ cells show_int two d = Err ValueError /\ In VOther (map snd d).
Proof.
  induction d as [|[k v] d IH]; [left; split; [now exists ""|intros []]|]. cbn [cells map snd].
  assert (v = VOther \/ v <> VOther /\ exists c, cell show_int two v = Ok c) as [->|(N & c & E)].
  { destruct v; try (right; split; [discriminate|cbn; eauto]). now left. }
  - right. split; [reflexivity|now left].
  - rewrite E. cbn [bind]. destruct IH as [((s & ->) & H)|(-> & H)]; cbn [bind].
    + left. split; [eauto|]. intros [K|K]; [now apply N|now apply H].
    + right. split; [reflexivity|now right].
Qed.
