(** C46: writing a configuration and reading it back. *)
From Coq Require Import String Ascii Arith Bool Lia List.
From Verif Require Import Py PyFacts Params Mass VConv Status StatusProofs StatusSpec.
Import ListNotations.
Open Scope string_scope.

Lemma sec_get_put c s d : sec_get (sec_put c s d) s = Some d.
Proof. unfold sec_get, sec_put. destruct (String.eqb s "DEFAULT") eqn:E; cbn; auto. apply dget_dset_same. Qed.
Lemma sec_put_put c s d d' : sec_put (sec_put c s d) s d' = sec_put c s d'.
Proof. unfold sec_put. destruct (String.eqb s "DEFAULT") eqn:E; cbn; auto. now rewrite dset_dset_same. Qed.
Lemma sec_put_get c s d : sec_get c s = Some d -> sec_put c s d = c.
Proof.
  unfold sec_get, sec_put. destruct c as [c1 c2]; destruct (String.eqb s "DEFAULT"); cbn; intro H.
  - now inversion H.
  - now rewrite dset_same_value.
Qed.

Lemma in_dset {V} (d : dict V) k v x : In x (dkeys (dset d k v)) -> x = k \/ In x (dkeys d).
Proof. rewrite dkeys_dset. destruct (dmem d k); auto. intro H. apply in_app_or in H. destruct H as [H|[H|[]]]; auto. Qed.

(** ** finish *)
Lemma dget_map {A B} (f : A -> B) (d : dict A) k : dget (map (fun kv => (fst kv, f (snd kv))) d) k = option_map f (dget d k).
Proof. induction d as [|[a b] d IH]; cbn; auto. destruct (String.eqb k a); auto. Qed.
Lemma dset_map {A B} (f : A -> B) (d : dict A) k v :
  map (fun kv => (fst kv, f (snd kv))) (dset d k v) = dset (map (fun kv => (fst kv, f (snd kv))) d) k (f v).
Proof. induction d as [|[a b] d IH]; cbn; auto. destruct (String.eqb k a); cbn; congruence. Qed.
Lemma dkeys_map {A B} (f : A -> B) (d : dict A) : dkeys (map (fun kv => (fst kv, f (snd kv))) d) = dkeys d.
Proof. unfold dkeys. rewrite map_map. reflexivity. Qed.
Lemma finish_put c s d : finish (sec_put c s d) = sec_put (finish c) s (finish_dict d).
Proof. unfold finish, sec_put. destruct (String.eqb s "DEFAULT"); cbn; auto. now rewrite dset_map. Qed.
Lemma finish_get c s : sec_get (finish c) s = option_map finish_dict (sec_get c s).
Proof. unfold finish, sec_get. cbn. destruct (String.eqb s "DEFAULT"); cbn; auto. apply dget_map. Qed.
Lemma finish_blank st sec opt : finish (r_cfg (more st sec opt "")) = finish (r_cfg st).
Proof.
  unfold more. destruct (sec_get (r_cfg st) sec) as [d|] eqn:E; auto. destruct (dget d opt) as [v|] eqn:E2; auto. cbn [r_cfg].
  rewrite finish_put. apply sec_put_get. rewrite finish_get, E. cbn [option_map]. f_equal. unfold finish_dict. rewrite dset_map.
  symmetry. apply dset_same_value. rewrite dget_map, E2. cbn [option_map]. f_equal. now rewrite rstrip_app.
Qed.
Lemma more_frame st sec opt x : r_sec (more st sec opt x) = r_sec st /\ r_opt (more st sec opt x) = r_opt st /\ r_ind (more st sec opt x) = r_ind st.
Proof. unfold more. destruct (sec_get (r_cfg st) sec) as [d|]; auto. destruct (dget d opt); auto. Qed.

(** ** one item *)
Lemma startswith_char s c : startswith s (String c "") = match s with String a _ => Ascii.eqb c a | "" => false end.
Proof.
  unfold startswith. destruct s as [|a s]; auto. cbn [String.prefix]. destruct (ascii_dec c a) as [->|N].
  - rewrite Ascii.eqb_refl. now destruct s.
  - symmetry. now apply Ascii.eqb_neq.
Qed.
Lemma not_commented s : commented s = false -> startswith s "#" || startswith s ";" = false.
Proof.
  rewrite !startswith_char. unfold commented. destruct s as [|a s]; [reflexivity|]. now rewrite (Ascii.eqb_sym "#"), (Ascii.eqb_sym ";").
Qed.

Lemma option_of_app k c r : sall (fun c => negb (delim c)) k = true -> delim c = true -> option_of (k ++ String c r) = Some (k, r).
Proof.
  intros Hk Hc. induction k as [|a k IH]; cbn [append option_of].
  - unfold delim in Hc. now rewrite Hc.
  - cbn [sall] in Hk. apply andb_true_iff in Hk. destruct Hk as [H1 H2]. unfold delim in H1. apply negb_true_iff in H1. now rewrite H1, IH.
Qed.
Lemma before_close_none s : closeless s -> before_close s = None.
Proof.
  unfold closeless. induction s as [|c s IH]; cbn; auto. intro H. apply andb_true_iff in H. destruct H as [H1 H2]. rewrite IH by auto.
  apply negb_true_iff in H1. now rewrite H1.
Qed.
Lemma closeless_app a b : closeless a -> closeless b -> closeless (a ++ b).
Proof. unfold closeless. intros Ha Hb. now rewrite sall_app, Ha, Hb. Qed.
Lemma header_none c r : (c = "["%char -> closeless (stail r)) -> header (String c r) = None.
Proof.
  intro H. cbn [header]. destruct (Ascii.eqb_spec c "[") as [->|N]; auto. specialize (H eq_refl). destruct r as [|a r]; auto.
  cbn [stail] in H. cbn [before_close]. rewrite before_close_none by auto. destruct (Ascii.eqb a "]"); auto.
Qed.

(** the first line of an item *)
Definition item_text (k l0 : string) : string := k ++ " =" ++ (if String.eqb l0 "" then "" else " " ++ l0).
Lemma strip_item k l0 : key_ok k -> stripped l0 -> strip (k ++ " = " ++ l0) = item_text k l0 /\ indent (k ++ " = " ++ l0) = 0%nat.
Proof.
  intros (Hn & Hs & _) Hl. destruct k as [|c k]; [easy|].
  assert (is_space c = false) as Hc.
  { pose proof (strip_cases (String c k)) as [E|(a & b & E & Ha & _)]; unfold stripped in Hs; rewrite Hs in E; [discriminate|]. now inversion E; subst. }
  split; [|cbn [append indent]; now rewrite Hc].
  unfold item_text. cbn [append]. rewrite strip_nospace by auto. f_equal.
  destruct (String.eqb_spec l0 "") as [->|N].
  - rewrite rstrip_app. reflexivity.
  - replace (k ++ String " " (String "=" (String " " l0))) with ((k ++ " = ") ++ l0) by (rewrite app_assoc_s; reflexivity).
    rewrite rstrip_app, stripped_r by auto. destruct l0; [easy|]. rewrite app_assoc_s. reflexivity.
Qed.

Lemma read_first st sec d k l0 v : item_ok (k, v) -> hd "" (pieces v) = l0 -> r_sec st = Some sec -> sec_get (r_cfg st) sec = Some d -> ~ In k (dkeys d) ->
  read_line st (k ++ " = " ++ l0) = Ok (mkRd (sec_put (r_cfg st) sec (dset d k l0)) (Some sec) (Some k) 0).
Proof.
  intros (HK & HV & HO) Hl0 Hsec Hd Hin. cbn [fst snd] in *.
  assert (stripped l0) as Hs.
  { destruct HV as (_ & HV & _). subst l0. destruct (pieces v); [easy|]. now inversion HV. }
  destruct (strip_item k l0 HK Hs) as [E1 E2]. unfold read_line. rewrite E1, E2.
  assert (Hread : read_header st 0 (item_text k l0) = Ok (mkRd (sec_put (r_cfg st) sec (dset d k l0)) (Some sec) (Some k) 0)).
  { pose proof HK as (Hn & Hsk & Hlow & Hpl & Hdl & Hc). destruct k as [|c k]; [easy|].
    unfold read_header. assert (header (item_text (String c k) l0) = None) as ->.
    { unfold item_text. cbn [append]. apply header_none. intros ->. cbn [open_ok] in HO. destruct (HO eq_refl) as [A B]. rewrite Hl0 in B.
      assert (closeless (if String.eqb l0 "" then "" else " " ++ l0)) as B' by (destruct (String.eqb l0 ""); [reflexivity|exact B]).
      destruct k as [|a k]; cbn [append stail] in *; [exact B'|]. apply closeless_app; auto. }
    rewrite Hsec. unfold item_text.
    replace (String c k ++ " =" ++ (if String.eqb l0 "" then "" else " " ++ l0)) with ((String c k ++ " ") ++ String "=" (if String.eqb l0 "" then "" else " " ++ l0)) by (rewrite app_assoc_s; reflexivity).
    rewrite option_of_app; [|now rewrite sall_app, Hdl|reflexivity].
    rewrite rstrip_app. change (rstrip " ") with "". cbn match. rewrite stripped_r, Hlow, Hd by auto.
    replace (String.eqb (String c k ++ " ") "") with false by reflexivity. cbn [orb].
    replace (dmem d (String c k)) with false.
    2:{ unfold dmem. apply dget_none in Hin. now rewrite Hin. }
    do 3 f_equal. destruct (String.eqb_spec l0 "") as [->|N]; auto. cbn [append]. rewrite strip_space by auto. unfold stripped in Hs. now rewrite Hs. }
  rewrite not_commented.
  - destruct (String.eqb_spec (item_text k l0) "") as [E|_].
    + unfold item_text in E. destruct k; [destruct HK as [HK _]; now destruct HK|discriminate].
    + rewrite Hread. rewrite Hsec. destruct (r_opt st); auto. 
  - destruct HK as (Hn & _ & _ & _ & _ & Hc). destruct k; [easy|]. exact Hc.
Qed.

(** continuation lines *)
Definition grow (v : string) (ls : list string) : string := fold_left (fun v x => v ++ String nl x) ls v.
Lemma grow_join l0 ls : grow l0 ls = joinl (l0 :: ls).
Proof.
  revert l0. induction ls as [|a ls IH]; intro l0; auto. rewrite joinl_cons. unfold grow. cbn [fold_left].
  change (fold_left _ ls ?x) with (grow x ls). rewrite IH. destruct ls; cbn [joinl]; auto. rewrite app_assoc_s. reflexivity.
Qed.
Lemma read_cont st sec k x : r_sec st = Some sec -> r_opt st = Some k -> r_ind st = 0%nat -> stripped x -> commented x = false ->
  read_line st (String tab x) = Ok (more st sec k x).
Proof.
  intros Hs Ho Hi Hx Hc. unfold read_line. rewrite strip_space, Hx by reflexivity. rewrite not_commented by auto. rewrite Hs, Ho, Hi.
  destruct (String.eqb_spec x "") as [->|N]; auto.
Qed.
Lemma read_conts sec k ls : Forall stripped ls -> Forall (fun l => commented l = false) ls -> forall st d v,
  r_sec st = Some sec -> r_opt st = Some k -> r_ind st = 0%nat -> sec_get (r_cfg st) sec = Some d -> dget d k = Some v ->
  for_each (map (String tab) ls) read_line st = Ok (mkRd (sec_put (r_cfg st) sec (dset d k (grow v ls))) (Some sec) (Some k) 0).
Proof.
  induction ls as [|x ls IH]; intros HS HC st d v Hs Ho Hi Hd Hv.
  - cbn. rewrite dset_same_value, sec_put_get by auto. destruct st; cbn in *; congruence.
  - inversion HS; subst. inversion HC; subst. cbn [map for_each]. rewrite (read_cont st sec k) by auto. cbn [bind].
    unfold more. rewrite Hd, Hv. cbn [r_sec r_opt r_ind r_cfg].
    rewrite (IH H2 H4 _ (dset d k (v ++ String nl x)) (v ++ String nl x)); cbn [r_sec r_opt r_ind r_cfg]; auto using sec_get_put, dget_dset_same.
    rewrite sec_put_put, dset_dset_same. reflexivity.
Qed.

Lemma read_item st sec d k v b : item_ok (k, v) -> r_sec st = Some sec -> sec_get (r_cfg st) sec = Some d -> ~ In k (dkeys d) ->
  for_each (lines (k ++ " = " ++ indent_lines v ++ line_end ++ b)) read_line st =
  for_each (lines b) read_line (mkRd (sec_put (r_cfg st) sec (dset d k v)) (Some sec) (Some k) 0).
Proof.
  intros HI Hs Hd Hin. pose proof HI as (HK & HV & HO). cbn [fst snd] in *.
  replace (k ++ " = " ++ indent_lines v ++ line_end ++ b) with ((k ++ " = ") ++ indent_lines v ++ line_end ++ b) by (rewrite app_assoc_s; reflexivity).
  rewrite lines_value; [|rewrite sall_app; destruct HK as (_ & _ & _ & HK & _); now rewrite HK|apply HV].
  destruct (pieces v) as [|l0 ls] eqn:EP; [destruct (pieces_not_nil v EP)|]. rewrite app_assoc_s.
  cbn [for_each]. erewrite read_first; eauto; [|rewrite EP; reflexivity]. cbn [bind]. rewrite for_each_app.
  destruct HV as (_ & HV1 & HV2 & _). rewrite EP in HV1, HV2. inversion HV1; subst.
  rewrite (read_conts sec k ls) with (d := dset d k l0) (v := l0); cbn [r_sec r_opt r_ind r_cfg]; auto using sec_get_put, dget_dset_same. cbn [bind].
  rewrite sec_put_put, dset_dset_same, grow_join, <- EP, join_pieces. reflexivity.
Qed.

Lemma read_items sec d2 b : dict_ok d2 -> forall st d, r_sec st = Some sec -> sec_get (r_cfg st) sec = Some d -> (forall k, In k (dkeys d2) -> ~ In k (dkeys d)) ->
  exists st', for_each (lines (write_items d2 ++ b)) read_line st = for_each (lines b) read_line st' /\
    r_cfg st' = sec_put (r_cfg st) sec (dupdate d d2) /\ r_sec st' = Some sec.
Proof.
  intros [HW HI]. induction d2 as [|[k v] d2 IH]; intros st d Hs Hd Hin.
  - exists st. cbn. split; auto. rewrite sec_put_get; auto.
  - inversion HI; subst. cbn [write_items]. rewrite !app_assoc_s. rewrite (read_item st sec d k v) by (auto; apply Hin; now left).
    inversion HW; subst. destruct (IH ltac:(assumption) ltac:(assumption) (mkRd (sec_put (r_cfg st) sec (dset d k v)) (Some sec) (Some k) 0) (dset d k v))
      as (st' & E1 & E2 & E3); auto.
    + cbn [r_cfg]. apply sec_get_put.
    + intros k' Hk' Hc. apply in_dset in Hc. destruct Hc as [->|Hc]; [contradiction|]. revert Hc. apply Hin. now right.
    + exists st'. split; auto. split; auto. rewrite E2. cbn [r_cfg]. rewrite sec_put_put. reflexivity.
Qed.

(** ** sections *)
Lemma before_close_app n r : closeless r -> before_close (n ++ String "]" r) = Some n.
Proof.
  intro Hr. induction n as [|c n IH]; cbn [append before_close].
  - now rewrite before_close_none.
  - now rewrite IH.
Qed.
Lemma read_head st n : name_ok n -> dmem (c_sec (r_cfg st)) n = false ->
  read_line st ("[" ++ n ++ "]") = Ok (mkRd (if String.eqb n "DEFAULT" then r_cfg st else sec_put (r_cfg st) n []) (Some n) None 0).
Proof.
  intros [Hn Hp] Hm. cbn [append]. unfold read_line.
  assert (strip (String "[" (n ++ "]")) = String "[" (n ++ "]")) as -> by (rewrite strip_nospace by auto; f_equal; rewrite rstrip_app; reflexivity).
  rewrite not_commented by reflexivity. change (String.eqb (String "[" (n ++ "]")) "") with false. cbn [indent].
  change (is_space "[") with false. cbn match.
  assert (read_header st 0 (String "[" (n ++ "]")) = Ok (mkRd (if String.eqb n "DEFAULT" then r_cfg st else sec_put (r_cfg st) n []) (Some n) None 0)) as E.
  { unfold read_header. cbn [header]. change (Ascii.eqb "[" "[") with true. cbn match. rewrite before_close_app by reflexivity.
    destruct n as [|c n]; [easy|]. now rewrite Hm. }
  rewrite E. destruct (r_sec st), (r_opt st); auto.
Qed.

Lemma finish_dict_id d : dict_ok d -> finish_dict d = d.
Proof.
  intros [_ H]. unfold finish_dict. induction H as [|[k v] d (_ & (_ & _ & _ & Hv) & _) H IH]; cbn; auto. cbn in Hv. now rewrite Hv, IH.
Qed.
Lemma dget_sec_finish c n : dmem (c_sec (finish c)) n = dmem (c_sec c) n.
Proof. unfold dmem, finish. cbn. rewrite dget_map. now destruct (dget (c_sec c) n). Qed.

Lemma dset_sec_put c n d : String.eqb n "DEFAULT" = false -> sec_put c n d = mkCfg (c_def c) (dset (c_sec c) n d).
Proof. intro E. unfold sec_put. now rewrite E. Qed.

Lemma write_section_text n d b : write_section n d ++ b = ("[" ++ n ++ "]") ++ String nl (write_items d ++ String nl b).
Proof. unfold write_section, line_end. rewrite !app_assoc_s. reflexivity. Qed.
Lemma plain_head n : name_ok n -> sall plain ("[" ++ n ++ "]") = true.
Proof. intros [_ H]. cbn. now rewrite sall_app, H. Qed.
Lemma lines_nl b : lines (String nl b) = "" :: lines b.
Proof. reflexivity. Qed.

Lemma read_section st n d b c0 : name_ok n -> dict_ok d -> dmem (c_sec (r_cfg st)) n = false -> finish (r_cfg st) = c0 ->
  (n = "DEFAULT" -> c_def (r_cfg st) = []) ->
  exists st', for_each (lines (write_section n d ++ b)) read_line st = for_each (lines b) read_line st' /\
    finish (r_cfg st') = sec_put c0 n d.
Proof.
  intros Hn Hd Hm Hf HD. rewrite write_section_text, lines_plain by now apply plain_head. cbn [for_each]. rewrite read_head by auto. cbn [bind].
  set (st1 := mkRd _ _ _ _).
  assert (sec_get (r_cfg st1) n = Some []) as Hg.
  { cbn [st1 r_cfg]. destruct (String.eqb_spec n "DEFAULT") as [->|N]; [|apply sec_get_put]. unfold sec_get. cbn. now rewrite HD. }
  destruct (read_items n d (String nl b) Hd st1 [] eq_refl Hg) as (st' & E1 & E2 & E3); [intros k _ []|].
  rewrite E1, lines_nl. cbn [for_each]. rewrite dupdate_empty in E2 by apply Hd.
  assert (exists st2, read_line st' "" = Ok st2 /\ finish (r_cfg st2) = finish (r_cfg st')) as (st2 & E4 & E5).
  { unfold read_line. cbn [strip lstrip rstrip startswith String.prefix orb String.eqb]. rewrite E3. destruct (r_opt st') as [o|]; eauto.
    eexists. split; [reflexivity|]. apply finish_blank. }
  rewrite E4. cbn [bind]. exists st2. split; auto. rewrite E5, E2, finish_put, finish_dict_id by auto. cbn [st1 r_cfg].
  destruct (String.eqb_spec n "DEFAULT") as [->|N]; [now rewrite Hf|]. rewrite finish_put, sec_put_put. now rewrite Hf.
Qed.

Lemma read_sections l : forall st c0, Forall (fun nd => name_ok (fst nd) /\ fst nd <> "DEFAULT" /\ dict_ok (snd nd)) l -> wf_dict l ->
  finish (r_cfg st) = c0 -> (forall n, In n (dkeys l) -> ~ In n (dkeys (c_sec c0))) ->
  exists st', for_each (lines (write_sections l)) read_line st = Ok st' /\ finish (r_cfg st') = mkCfg (c_def c0) (dupdate (c_sec c0) l).
Proof.
  induction l as [|[n d] l IH]; intros st c0 HF HW Hf Hin.
  - exists st. split; auto. rewrite Hf. now destruct c0.
  - inversion HF as [|x y (Hn & HnD & Hd) HF2]; subst. cbn [fst snd] in *. inversion HW; subst. cbn [write_sections].
    destruct (read_section st n d (write_sections l) (finish (r_cfg st))) as (st1 & E1 & E2); auto.
    { rewrite <- dget_sec_finish. unfold dmem. specialize (Hin n ltac:(now left)). apply dget_none in Hin. now rewrite Hin. }
    { congruence. }
    rewrite E1. assert (String.eqb n "DEFAULT" = false) as ED by now apply String.eqb_neq. rewrite dset_sec_put in E2 by auto.
    destruct (IH st1 _ HF2 ltac:(assumption) E2) as (st' & E3 & E4).
    { cbn [c_sec]. intros n' Hn' Hc. apply in_dset in Hc. destruct Hc as [->|Hc]; [contradiction|]. revert Hc. apply Hin. now right. }
    exists st'. split; auto.
Qed.

Theorem parse_write c : cfg_ok c -> parse (write c) = Ok c.
Proof.
  intros (HD & HW & HF). unfold parse, write.
  assert (exists st, for_each (lines (match c_def c with [] => "" | d => write_section "DEFAULT" d end ++ write_sections (c_sec c))) read_line
      (mkRd no_config None None 0) = for_each (lines (write_sections (c_sec c))) read_line st /\ finish (r_cfg st) = mkCfg (c_def c) []) as (st & E1 & E2).
  { destruct (c_def c) as [|kv d] eqn:E.
    - eexists. split; [reflexivity|]. reflexivity.
    - destruct (read_section (mkRd no_config None None 0) "DEFAULT" (kv :: d) (write_sections (c_sec c)) no_config) as (st & E1 & E2); auto.
      + split; [discriminate|reflexivity].
      + exists st. split; auto. }
  rewrite E1. destruct (read_sections (c_sec c) st _ HF HW E2) as (st' & E3 & E4).
  { intros n _ []. }
  rewrite E3. cbn [bind]. rewrite E4. cbn [c_def c_sec]. rewrite dupdate_empty by auto. now destruct c.
Qed.
