From Coq Require Import Reals String Arith Bool Lra Lia List.
From Verif Require Import Py PyFacts PyFloat Mass.
Import ListNotations.
Open Scope R_scope.

Lemma pw_pos a p : 0 < pw a p.
Proof. unfold pw, Rpower. apply exp_pos. Qed.
Lemma pw_opp a p : 0 < a -> pw a p * pw a (- p) = 1.
Proof. intro H. unfold pw. rewrite Rpower_Ropp. field. apply Rgt_not_eq, exp_pos. Qed.
Lemma pw_cube a p : pw a p ^ 3 = pw a (3 * p).
Proof. unfold pw. rewrite <- Rpower_pow by apply exp_pos. rewrite Rpower_mult. f_equal. cbn. ring. Qed.
Lemma pw_one a : 0 < a -> pw a 1 = a.
Proof. apply Rpower_1. Qed.
Lemma pw_two a : 0 < a -> pw a 2 = a ^ 2.
Proof. intro H. unfold pw. replace 2 with (INR 2) by (cbn; ring). apply Rpower_pow. auto. Qed.
Lemma pw_half x : 0 < x -> pw x (- (1 / 2)) * sqrt x = 1.
Proof.
  intro H. unfold pw. rewrite <- (Rpower_sqrt x H), <- Rpower_plus. replace (- (1 / 2) + / 2) with 0 by field. apply Rpower_O. auto.
Qed.

(** ** light planets: Msini inverts semi_amplitude *)
Definition light (c : uconst) (m M : R) : Prop := m * c_mjup c / c_msun c / M <= 1 / 10.

Lemma msini_light_inverse c m P M e : uconst_ok c -> 0 < P -> 0 < M -> 0 <= e < 1 ->
  msini_light c (mkMrow (K_0 * pw (1 - e ^ 2) (- (1 / 2)) * m * pw (day_to_year P) (- (1 / 3)) * pw M (- (2 / 3))) P M e) = m.
Proof.
  intros (C1 & _) HP HM He. unfold msini_light. cbn [r_K r_P r_M r_e].
  replace (M * c_msun c / c_msun c) with M by (field; lra).
  assert (0 < day_to_year P) as HY by (unfold day_to_year; apply Rdiv_lt_0_compat; lra).
  assert (0 < 1 - e ^ 2) as H1 by nra.
  pose proof (pw_opp M (2 / 3) HM) as A1. pose proof (pw_opp _ (1 / 3) HY) as A2. pose proof (pw_half _ H1) as A3.
  set (a := pw M (2 / 3)) in *. set (b := pw M (- (2 / 3))) in *. set (x := pw (day_to_year P) (1 / 3)) in *.
  set (y := pw (day_to_year P) (- (1 / 3))) in *. set (s := sqrt (1 - e ^ 2)) in *. set (q := pw (1 - e ^ 2) (- (1 / 2))) in *.
  replace (K_0 * q * m * y * b / K_0 * s * a * x) with (m * (q * s) * (a * b) * (x * y)).
  - rewrite A1, A2, A3. ring.
  - unfold K_0. field.
Qed.

Definition amp_row (c : uconst) (units : string) (q : R * R * R * R) : res mrow :=
  let '(m, P, M, e) := q in do K <- semi_amplitude c units m P M e; Ok (mkMrow K P M e).
Definition planet_ok (q : R * R * R * R) : Prop := let '(m, P, M, e) := q in 0 < m /\ 0 < P /\ 0 < M /\ 0 <= e < 1.

Lemma Msini_inverts root c units u (l : list (R * R * R * R)) : uconst_ok c -> Forall planet_ok l -> in_mjup c units = Ok u ->
  Forall (fun q => let '(m, P, M, e) := q in light c (m * u) M) l ->
  exists rows, map_res (amp_row c units) l = Ok rows /\
    Msini root c units rows = Ok (map (fun q => fst (fst (fst q))) l).
Proof.
  intros C PO U L.
  assert (exists rows, map_res (amp_row c units) l = Ok rows /\ map (msini_light c) rows = map (fun q => fst (fst (fst q)) * u) l /\
          existsb (heavy c) rows = false) as (rows & E & M1 & H1).
  { induction l as [|[[[m P] M] e] l IH]; [exists []; auto|].
    inversion PO as [|? ? P1 PO']; subst. inversion L as [|? ? L1 L']; subst. cbn in P1. destruct P1 as (Pm & PP & PM & Pe).
    destruct (IH PO' L') as (rows & E & M1 & H1).
    pose proof (msini_light_inverse c (m * u) P M e C PP PM Pe) as I.
    set (K := K_0 * pw (1 - e ^ 2) (- (1 / 2)) * (m * u) * pw (day_to_year P) (- (1 / 3)) * pw M (- (2 / 3))) in *.
    exists (mkMrow K P M e :: rows). split; [|split].
    - cbn [map_res amp_row]. unfold semi_amplitude. rewrite U. cbn [bind]. fold K. rewrite E. reflexivity.
    - cbn [map fst snd]. now rewrite I, M1.
    - cbn [existsb]. rewrite H1. unfold heavy. rewrite I. cbn [r_M].
      destruct C as (C1 & _). replace (M * c_msun c / c_msun c) with M by (field; lra).
      rewrite (proj2 (rltb_false _ _)); [reflexivity|]. exact L1. }
  exists rows. split; auto. unfold Msini. rewrite H1, M1. unfold in_mjup in U.
  destruct C as (C1 & C2 & C3 & _).
  destruct (String.eqb (lower units) "jupiter").
  - inversion U; subst. f_equal. apply map_ext. intro q. ring.
  - destruct (String.eqb (lower units) "earth"); [|discriminate]. inversion U; subst. f_equal. rewrite map_map. apply map_ext. intro q. field. lra.
Qed.

Lemma Msini_units root c units l : lower units <> "jupiter"%string -> lower units <> "earth"%string -> Msini root c units l = Err PlainException.
Proof.
  intros N1 N2. unfold Msini. rewrite (proj2 (String.eqb_neq _ _) N1), (proj2 (String.eqb_neq _ _) N2). now destruct (existsb (heavy c) l).
Qed.

(** linearity in K (light branch) *)
Lemma msini_light_linear c x k : msini_light c (mkMrow (k * r_K x) (r_P x) (r_M x) (r_e x)) = k * msini_light c x.
Proof. unfold msini_light. cbn. unfold Rdiv. ring. Qed.

Lemma Msini_linear root c units l k : 0 < k ->
  existsb (heavy c) l = false -> existsb (heavy c) (map (fun x => mkMrow (k * r_K x) (r_P x) (r_M x) (r_e x)) l) = false ->
  Msini root c units (map (fun x => mkMrow (k * r_K x) (r_P x) (r_M x) (r_e x)) l)
  = match Msini root c units l with Ok ms => Ok (map (Rmult k) ms) | Err e => Err e end.
Proof.
  intros Hk H1 H2. unfold Msini. rewrite H1, H2, !map_map.
  assert (map (fun x => msini_light c (mkMrow (k * r_K x) (r_P x) (r_M x) (r_e x))) l = map (fun x => k * msini_light c x) l) as E
    by (apply map_ext; intro; apply msini_light_linear).
  destruct (String.eqb (lower units) "jupiter"); [now rewrite map_map, E|].
  destruct (String.eqb (lower units) "earth"); [|reflexivity]. f_equal. rewrite map_map. apply map_ext. intro x.
  rewrite msini_light_linear. unfold Rdiv. ring.
Qed.

(** ** Kepler's third law *)
Lemma third_law c P M : uconst_ok c -> 0 < P -> 0 < M ->
  0 < semi_major_axis c P M /\
  (semi_major_axis c P M * c_au c) ^ 3 = c_G c * (M * c_msun c) * (P * 86400) ^ 2 / (4 * PI ^ 2).
Proof.
  intros (C1 & _ & _ & _ & _ & C6 & C7) HP HM. unfold semi_major_axis, day_to_sec.
  set (q := (P * 86400) ^ 2 * c_G c * (M * c_msun c) / (4 * PI ^ 2)).
  assert (0 < PI) by apply PI_RGT_0.
  assert (0 < q) as Q.
  { unfold q. assert (0 < (P * 86400) ^ 2) by (apply pow_lt; nra). assert (0 < PI ^ 2) by (apply pow_lt; lra).
    assert (0 < M * c_msun c) by nra. apply Rdiv_lt_0_compat; [|lra]. apply Rmult_lt_0_compat; [apply Rmult_lt_0_compat|]; auto. }
  split; [apply Rdiv_lt_0_compat; [apply pw_pos|lra]|].
  replace (pw q (1 / 3) / c_au c * c_au c) with (pw q (1 / 3)) by (field; lra). rewrite pw_cube.
  replace (3 * (1 / 3)) with 1 by field. rewrite pw_one by auto. unfold q. field. lra.
Qed.

(** ** density *)
Lemma density_formula c units m r : uconst_ok c -> 0 < r -> forall rho, density c units m r = Ok rho ->
  exists um ur, 0 < um /\ 0 < ur /\ ((lower units = "earth"%string /\ um = c_mearth c /\ ur = c_rearth c) \/
                 (lower units = "jupiter"%string /\ um = c_mjup c /\ ur = c_rjup c)) /\
    rho * 1000 * (4 / 3 * PI * (r * ur) ^ 3) = m * um.
Proof.
  intros (C1 & C2 & C3 & C4 & C5 & _) Hr rho. unfold density. assert (0 < PI) by apply PI_RGT_0.
  destruct (String.eqb_spec (lower units) "earth") as [E|E]; [|destruct (String.eqb_spec (lower units) "jupiter") as [E2|E2]]; cbn [bind]; intro H0; inversion H0; subst; clear H0.
  - exists (c_mearth c), (c_rearth c). split; [lra|]. split; [lra|]. split; [left; auto|]. assert (0 < (r * c_rearth c) ^ 3) by (apply pow_lt; nra). field. split; nra.
  - exists (c_mjup c), (c_rjup c). split; [lra|]. split; [lra|]. split; [right; auto|]. assert (0 < (r * c_rjup c) ^ 3) by (apply pow_lt; nra). field. split; nra.
Qed.
Lemma density_scaling c units m r k j rho : uconst_ok c -> 0 < r -> 0 < j -> density c units m r = Ok rho ->
  density c units (k * m) (j * r) = Ok (k / j ^ 3 * rho).
Proof.
  intros (C1 & C2 & C3 & C4 & C5 & _) Hr Hj. unfold density. assert (0 < PI) by apply PI_RGT_0.
  destruct (String.eqb (lower units) "earth"); [|destruct (String.eqb (lower units) "jupiter"); [|discriminate]]; cbn [bind]; intro E; inversion E; f_equal;
    field; repeat split; nra.
Qed.

Lemma cube_lt p q : 0 < p -> p < q -> p ^ 3 < q ^ 3.
Proof.
  intros Hp Hq. assert (q ^ 3 - p ^ 3 = (q - p) * (q ^ 2 + q * p + p ^ 2)) by ring.
  assert (0 < q ^ 2 + q * p + p ^ 2) by nra. assert (0 < (q - p) * (q ^ 2 + q * p + p ^ 2)) by (apply Rmult_lt_0_compat; lra). lra.
Qed.

(** ** massive planets: the two-body relation *)
Definition two_body (c : uconst) (x : mrow) (m : R) : Prop :=
  r_K x = pw (2 * PI * c_G c / day_to_sec (r_P x)) (1 / 3) * m / (pw (r_M x * c_msun c + m) (2 / 3) * sqrt (1 - r_e x ^ 2)).
Definition row_ok (x : mrow) : Prop := 0 < r_K x /\ 0 < r_P x /\ 0 < r_M x /\ 0 <= r_e x < 1.

Section Heavy.
Context (c : uconst) (C : uconst_ok c) (x : mrow) (X : row_ok x).

Lemma a_pos : 0 < msini_a c x.
Proof.
  destruct X as (X1 & _ & _ & X4). unfold msini_a. apply Rmult_lt_0_compat; [apply Rmult_lt_0_compat; [auto|apply pw_pos]|].
  apply sqrt_lt_R0. nra.
Qed.

Lemma func_two_body m : 0 < m -> (msini_func c x m = 0 <-> two_body c x m).
Proof.
  intro Hm. destruct X as (X1 & X2 & X3 & X4). unfold msini_func, two_body, msini_a.
  assert (0 < sqrt (1 - r_e x ^ 2)) as S by (apply sqrt_lt_R0; nra).
  set (s := sqrt (1 - r_e x ^ 2)) in *. pose proof (pw_pos (r_M x * c_msun c + m) (2 / 3)) as P.
  set (p := pw (r_M x * c_msun c + m) (2 / 3)) in *.
  assert (0 < 2 * PI * c_G c / day_to_sec (r_P x)) as Q.
  { destruct C as (_ & _ & _ & _ & _ & C6 & _). pose proof PI_RGT_0. unfold day_to_sec. apply Rdiv_lt_0_compat; nra. }
  pose proof (pw_opp _ (1 / 3) Q) as A. set (u := pw _ (1 / 3)) in *. set (v := pw _ (- (1 / 3))) in *.
  assert (0 < u) as U by apply pw_pos. split; intro H.
  - assert (m = r_K x * v * s * p) as Em by lra. clearbody p. rewrite Em. field_simplify_eq; [|split; lra].
    transitivity (r_K x * (u * v)); [rewrite A; ring|ring].
  - clearbody p. rewrite H. replace (u * m / (p * s) * v * s * p) with (m * (u * v)) by (field; split; lra). rewrite A. ring.
Qed.

Let M := r_M x * c_msun c.
Let a := msini_a c x.
Lemma M_pos : 0 < M.
Proof. destruct X as (_ & _ & X3 & _). destruct C as (C1 & _). unfold M. nra. Qed.

Lemma func_cubic m : 0 < m -> (msini_func c x m = 0 <-> m ^ 3 = a ^ 3 * (M + m) ^ 2).
Proof.
  intro Hm. unfold msini_func. fold M a. pose proof M_pos as PM. pose proof a_pos as PA. fold a in PA.
  assert ((a * pw (M + m) (2 / 3)) ^ 3 = a ^ 3 * (M + m) ^ 2) as E.
  { rewrite Rpow_mult_distr, pw_cube. replace (3 * (2 / 3)) with 2 by field. rewrite pw_two by lra. reflexivity. }
  assert (0 < a * pw (M + m) (2 / 3)) as PP by (apply Rmult_lt_0_compat; [auto|apply pw_pos]).
  set (y := a * pw (M + m) (2 / 3)) in *. rewrite <- E. split; intro H.
  - clear E. assert (m = y) as Em by lra. clearbody y. now rewrite Em.
  - assert (m = y); [|lra]. clear E. clearbody y. destruct (Rtotal_order m y) as [L|[L|L]]; auto; exfalso; [pose proof (cube_lt m y Hm L)|pose proof (cube_lt y m PP L)]; lra.
Qed.

Lemma heavy_unique m m' : 0 < m -> 0 < m' -> msini_func c x m = 0 -> msini_func c x m' = 0 -> m = m'.
Proof.
  intros Hm Hm' H H'. apply func_cubic in H; auto. apply func_cubic in H'; auto.
  pose proof M_pos as PM. pose proof a_pos as PA. fold a in PA. assert (0 < a ^ 3) as P3 by (apply pow_lt; auto).
  assert (forall p q, 0 < p -> p < q -> p ^ 3 = a ^ 3 * (M + p) ^ 2 -> q ^ 3 = a ^ 3 * (M + q) ^ 2 -> False) as K.
  { intros p q Hp Hpq E1 E2. assert (p ^ 3 * (M + q) ^ 2 = q ^ 3 * (M + p) ^ 2) as E by (rewrite E1, E2; ring).
    assert (q ^ 3 * (M + p) ^ 2 - p ^ 3 * (M + q) ^ 2 = (q - p) * (M ^ 2 * (q ^ 2 + q * p + p ^ 2) + 2 * M * p * q * (q + p) + p ^ 2 * q ^ 2)) as F by ring.
    assert (0 < M ^ 2 * (q ^ 2 + q * p + p ^ 2) + 2 * M * p * q * (q + p) + p ^ 2 * q ^ 2) as G.
    { assert (0 < q) by lra. assert (0 < p * q) by nra. assert (0 < p ^ 2) by nra. assert (0 < q ^ 2) by nra. assert (0 < M ^ 2) by nra.
      assert (0 < p ^ 2 * q ^ 2) by nra. assert (0 < M * (p * q)) by nra. nra. }
    assert (0 < (q - p) * (M ^ 2 * (q ^ 2 + q * p + p ^ 2) + 2 * M * p * q * (q + p) + p ^ 2 * q ^ 2)) by (apply Rmult_lt_0_compat; lra). lra. }
  destruct (Rtotal_order m m') as [L|[L|L]]; auto; exfalso; [apply (K m m')|apply (K m' m)]; auto.
Qed.

Lemma heavy_exists : exists m, 0 < m /\ msini_func c x m = 0.
Proof.
  pose proof M_pos as PM. pose proof a_pos as PA. fold a in PA. assert (0 < a ^ 3) as P3 by (apply pow_lt; auto).
  set (g := fun z => z ^ 3 - a ^ 3 * (M + z) ^ 2). set (Z := M + 4 * a ^ 3 + 1).
  assert (continuity g) as Cg by (unfold g; reg).
  assert (g 0 < 0) as G0. { unfold g. assert (0 < M ^ 2) by nra. replace ((M + 0) ^ 2) with (M ^ 2) by ring. nra. }
  assert (0 < g Z) as GZ.
  { unfold g. assert (M < Z) by (unfold Z; lra). assert (0 < Z) by lra. assert ((M + Z) ^ 2 <= 4 * Z ^ 2) by nra.
    assert (4 * a ^ 3 < Z) by (unfold Z; lra). assert (0 < Z ^ 2) by nra.
    assert (a ^ 3 * (M + Z) ^ 2 <= a ^ 3 * (4 * Z ^ 2)) by (apply Rmult_le_compat_l; lra).
    assert (4 * a ^ 3 * Z ^ 2 < Z * Z ^ 2) by (apply Rmult_lt_compat_r; auto).
    replace (Z ^ 3) with (Z * Z ^ 2) by ring. lra. }
  destruct (IVT g 0 Z Cg) as (m & Hm & Em); auto; [unfold Z; lra|].
  assert (0 < m) as Pm. { destruct (proj1 Hm) as [?|<-]; auto. rewrite Em in G0. lra. }
  exists m. split; auto. apply func_cubic; auto. unfold g in Em. lra.
Qed.
End Heavy.

(** if the root finder returns a positive zero for every element, the result is the
    unique solution of the two-body relation *)
Lemma Msini_heavy root c units l : uconst_ok c -> Forall row_ok l -> existsb (heavy c) l = true ->
  (forall x, In x l -> 0 < root (msini_func c x) (c_mjup c) /\ msini_func c x (root (msini_func c x) (c_mjup c)) = 0) ->
  lower units = "jupiter"%string ->
  exists ms, Msini root c units l = Ok ms /\
    Forall2 (fun x m => 0 < m /\ two_body c x (m * c_mjup c) /\ forall m', 0 < m' -> two_body c x (m' * c_mjup c) -> m' = m) l ms.
Proof.
  intros C R H Z U. unfold Msini. rewrite H, U. cbn [String.eqb Ascii.eqb Bool.eqb].
  exists (map (fun m => m / c_mjup c) (map (fun x => root (msini_func c x) (c_mjup c)) l)). split; [reflexivity|].
  destruct C as (C1 & C2 & C'). assert (uconst_ok c) as C by (repeat split; tauto).
  clear H U. induction l as [|x l IH]; cbn [map]; constructor.
  - destruct (Z x (or_introl eq_refl)) as [P E]. inversion R; subst. set (m := root _ _) in *.
    replace (m / c_mjup c * c_mjup c) with m by (field; lra).
    split; [apply Rdiv_lt_0_compat; auto|]. split; [apply func_two_body; auto|].
    intros m' Pm' Em'. apply func_two_body in Em'; auto; [|nra].
    assert (m' * c_mjup c = m) as <- by (eapply (heavy_unique c C x); eauto; nra). field. lra.
  - inversion R; subst. apply IH; auto. intros y Hy. apply Z. now right.
Qed.
