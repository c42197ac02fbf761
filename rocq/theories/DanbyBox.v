(** The Danby correction of kepler.py:92-101 and kepler.c:38-46 followed over
    boxes of eccentricities and eccentric anomalies. [rho] encloses the factor
    by which one correction multiplies the distance to the root; [strips]
    searches for a subdivision of a domain on which some six corrections bring
    the distance into a region where every further one divides it by four.
    Nothing here models code: it is the computation behind a proof. *)
From Coq Require Import Bool List Uint63 Sint63.
From Verif Require Import Enclose.
Import ListNotations.
Open Scope sint63_scope.

(** [e] eccentricity, [eS], [eC] its products with sine and cosine of the root
    [s], [J] the distance of the iterate below the root *)
Definition rho (e eS eC s J : iv) : iv :=
  let E := sub s J in
  let es := mul e (sini E) in
  let ec := mul e (cosi E) in
  let p := sub i1 ec in
  if negb (pos p) then Top else
  let d2 := sq J in
  match d2 with
  | Top => Top
  | Iv _ h2 =>
    let z := mk 0 h2 in
    let U := sub (cdiv i1 24) (cdiv z 720) in
    let W := sub (cdiv i1 120) (cdiv z 5040) in
    let B := add (sub i1 (cdiv d2 6)) (mul (sq d2) W) in
    let A := mul J (sub (half i1) (mul d2 U)) in
    let R := mul (mul J d2) (add (mul es U) (mul (mul ec W) J)) in
    let a := half (mul es J) in
    let b := cdiv (mul ec d2) 6 in
    let Ds := inter (sub (sub i1 (mul eC B)) (mul eS A)) (sub (add p (add a b)) R) in
    let o1 := div Ds p in
    let D2 := add p (mul a o1) in
    if negb (pos D2) then Top else
    let o2 := inter (div Ds D2) (add i1 (div (sub (sub b (mul a (sub o1 i1))) R) D2)) in
    let o22 := sq o2 in
    let D3 := add (add p (mul a o2)) (mul b o22) in
    if negb (pos D3) then Top else
    let num := add (add (mul a (sub o2 i1)) (mul b (sub o22 i1))) R in
    inter (div num D3) (sub i1 (div Ds D3))
  end.

(** every distance up to the largest in [J] is divided by four *)
Definition captured (e eS eC s J : iv) : bool :=
  match J with
  | Top => false
  | Iv l h =>
      let r := imax (- l) h in
      (r <=? one) &&
      match rho e eS eC s (mk (- r) r) with
      | Iv f1 f2 => (- 4194304 <=? f1) && (f2 <=? 4194304)
      | Top => false
      end
  end.

(** [n] corrections and [d] halvings of [J] are left *)
Fixpoint go (k : nat) (e eS eC s J : iv) (n d : nat) : bool :=
  match k, J, n with
  | S k, Iv l h, S n' =>
      if captured e eS eC s J then true else
      if (- 33554432 <=? l) && (h <=? 33554432) && go k e eS eC s (mul J (rho e eS eC s J)) n' d
      then true else
      match d with
      | O => false
      | S d' =>
          let m := (l + h) >> 1 in
          go k e eS eC s (mk l m) n d' && go k e eS eC s (mk m h) n d'
      end
  | _, _, _ => false
  end.

(** the sine of an angle between zero and half a turn *)
Definition sin0 (s : iv) : iv :=
  match sini s with Iv a b => mk (imax 0 a) b | Top => Top end.

(** from the guess 0.85 e beyond the mean anomaly *)
Definition check1 (e s : iv) : bool :=
  let eS := mul e (sin0 s) in
  go 20 e eS (mul e (cosi s)) s (sub eS (mul e (Iv 14260633 14260634))) 6 2.

(** the mean anomaly over a box *)
Definition mean (e s : iv) : iv :=
  match e, s with
  | Iv e1 e2, Iv s1 s2 =>
      if (0 <=? e1) && (e2 <=? one) then
        match sub (pt s1) (mul (pt e2) (sinp s1)), sub (pt s2) (mul (pt e1) (sinp s2)) with
        | Iv l _, Iv _ h => mk l h
        | _, _ => Top
        end
      else Top
  | _, _ => Top
  end.

(** the distance after one correction from the mean anomaly [m] *)
Definition first (e m eS : iv) : iv :=
  let es := mul e (sini m) in
  let ec := mul e (cosi m) in
  let p := sub i1 ec in
  if negb (pos p) then Top else
  let D2 := add p (half (mul (div es p) es)) in
  if negb (pos D2) then Top else
  let d2 := div es D2 in
  let D3 := add (add p (half (mul d2 es))) (cdiv (mul (sq d2) ec) 6) in
  if negb (pos D3) then Top else sub eS (div es D3).

(** from the mean anomaly *)
Definition check0 (e s : iv) : bool :=
  let eS := mul e (sin0 s) in
  let eC := mul e (cosi s) in
  if captured e eS eC s eS then true
  else go 20 e eS eC s (first e (mean e s) eS) 5 3.

Fixpoint box (ck : iv -> iv -> bool) (depth : nat) (e s : iv) : bool :=
  if ck e s then true else
  match depth, e, s with
  | S d, Iv e1 e2, Iv s1 s2 =>
      if s2 - s1 <? 4 * (e2 - e1) then
        let m := (e1 + e2) >> 1 in box ck d (mk e1 m) s && box ck d (mk m e2) s
      else
        let m := (s1 + s2) >> 1 in box ck d e (mk s1 m) && box ck d e (mk m s2)
  | _, _, _ => false
  end.

(** eccentricities between the first and last cut, anomalies from 0 to 3.15 *)
Fixpoint strips (ck : iv -> iv -> bool) (cuts : list int) : bool :=
  match cuts with
  | a :: (b :: _) as r => box ck 40 (mk a b) (Iv 0 52848231) && strips ck r
  | _ => true
  end.

(** 0, 0.5, 0.8, 0.9, 0.95, 0.97, 0.98, 0.985 and 0.99 *)
Definition cuts : list int :=
  [0; 8388608; 13421773; 15099494; 15938355; 16273900; 16441672; 16525558; 16609444].
