(** Model of radvel/model.py: GeneralRVModel, RVModel and _standard_rv_calc. *)
From Coq Require Import Reals String ZArith Bool List.
From Verif Require Import Py Params Kepler Basis.
Import ListNotations.
Open Scope R_scope.

(** [vector[i][0]] with Python's negative indices *)
Definition vgetz (v : list row) (i : Z) : res R :=
  let i' := if (i <? 0)%Z then (i + Z.of_nat (length v))%Z else i in
  if (i' <? 0)%Z then Err IndexError else vget v (Z.to_nat i').

(** GeneralRVModel/RVModel attributes, model.py:277-282, 355-357. *)
Record rvmodel := mkRVModel { m_params : params; m_vector : vector; m_time_base : R }.

(** RVModel.__init__ *)
Definition rvmodel_init (h : heap) (ps : params) (time_base : R) : res rvmodel :=
  do v <- vector_init h ps; Ok (mkRVModel ps v time_base).

(** model.py:337-342 *)
Definition orbel_at (w : list row) (n : Z) : res orbel :=
  do per <- vgetz w (-5 + 5 * n)%Z;
  do tp <- vgetz w (-4 + 5 * n)%Z;
  do e <- vgetz w (-3 + 5 * n)%Z;
  do om <- vgetz w (-2 + 5 * n)%Z;
  do k <- vgetz w (-1 + 5 * n)%Z;
  Ok (mkOrbel per tp e om k).

(** [vel += x], with numpy's broadcasting of a scalar or length-1 array *)
Definition add_np (vel : list R) (x : npval) : res (list R) :=
  match x with
  | Scal c => Ok (map (fun a => a + c) vel)
  | Arr l => if Nat.eqb (length l) (length vel) then Ok (map2 Rplus vel l)
             else match l with
                  | [c] => Ok (map (fun a => a + c) vel)
                  | _ => Err ValueError
                  end
  end.

(** _standard_rv_calc, model.py:322-344.  [use_c] and [fuel] are rv_drive's. *)
Definition standard_rv_calc (use_c : bool) (fuel : nat) (t : list R)
    (ps : params) (v : list row) (planet_num : option Z) : res (list R) :=
  do w <- v_to_synth (ps_basis ps) v false None;
  let planets := match planet_num with
                 | None => map Z.of_nat (seq 1 (ps_num ps))
                 | Some n => [n]
                 end in
  for_each planets
    (fun vel n => do o <- orbel_at w n; do x <- rv_drive use_c fuel t o; add_np vel x)
    (repeat 0 (length t)).

(** GeneralRVModel.__call__ for an RVModel, model.py:283-295. *)
Definition rvmodel_call (use_c : bool) (fuel : nat) (m : rvmodel) (t : list R)
    (planet_num : option Z) : res (list R) :=
  do vel <- standard_rv_calc use_c fuel t (m_params m) (v_vector (m_vector m)) planet_num;
  do i1 <- dget_res (v_indices (m_vector m)) "dvdt";
  do dvdt <- vget (v_vector (m_vector m)) i1;
  do i2 <- dget_res (v_indices (m_vector m)) "curv";
  do curv <- vget (v_vector (m_vector m)) i2;
  Ok (map2 Rplus (map2 Rplus vel (map (fun x => dvdt * (x - m_time_base m)) t))
                 (map (fun x => curv * (x - m_time_base m) ^ 2) t)).
