From Coq Require Import Reals List Bool ZArith Lra Lia.
From Verif Require Import Py PyFacts Kepler KeplerProofs DanbyProofs RvProofs.
Import ListNotations.
Open Scope R_scope.

Lemma map_res_total {A B} (f : A -> res B) l :
  (forall x, In x l -> exists y, f x = Ok y) -> exists ys, map_res f l = Ok ys.
Proof.
  induction l as [|x l IH]; cbn; intro H; [eauto|].
  destruct (H x) as [y ->]; auto. destruct IH as [ys ->]; auto. cbn. eauto.
Qed.

Lemma rv_drive_terminates use_c ts o : ts <> [] -> o_e o <= 3 / 10 ->
  exists v, rv_drive use_c 29 ts o = Ok v.
Proof.
  intros HN He. unfold rv_drive. destruct (reqb (o_e o) 0); [eauto|].
  set (e := if rltb (o_e o) 0 then 0 else o_e o).
  assert (He' : 0 <= e <= 3/10).
  { unfold e, rltb. destruct (Rlt_dec (o_e o) 0); lra. }
  rewrite (proj2 (rltb_false (99/100) e)) by lra.
  destruct use_c.
  - unfold c_rv_drive_array.
    destruct (map_res_total (fun x => c_rv_drive x (if rltb (o_per o) 0 then / 10000 else o_per o)
       (o_tp o) e (cos (o_om o)) (sin (o_om o)) (o_k o)) ts) as [ys ->]; [|cbn; eauto].
    intros x _. unfold c_rv_drive.
    destruct (c_kepler_terminates e (mean_anomaly (if rltb (o_per o) 0 then / 10000 else o_per o) (o_tp o) x) He') as [E ->].
    cbn. eauto.
  - unfold true_anomaly.
    destruct (kepler_terminates (map (mean_anomaly (if rltb (o_per o) 0 then / 10000 else o_per o) (o_tp o)) ts)
       (map (fun _ => 0 + e) ts)) as [v ->]; [| | |cbn; eauto].
    + now rewrite !map_length.
    + destruct ts; [congruence|discriminate].
    + intros x Hx. apply in_map_iff in Hx as [? [<- _]]. lra.
Qed.
