(** Specification of Keplerian motion, independent of the code:
    Kepler's equation, the true anomaly and the stellar radial velocity
    (e.g. Murray & Dermott ch. 2). *)
From Coq Require Import Reals.
Open Scope R_scope.

(** [E] is the eccentric anomaly at mean anomaly [M]. *)
Definition is_ecc_anomaly (e M E : R) : Prop := E - e * sin E = M.

(** [nu] is a true anomaly (an angle, hence only fixed modulo 2 pi) at
    eccentric anomaly [E]. *)
Definition is_true_anomaly (e E nu : R) : Prop :=
  cos nu = (cos E - e) / (1 - e * cos E) /\
  sin nu = sqrt (1 - e * e) * sin E / (1 - e * cos E).

(** [nu] is a true anomaly at time [t] of an orbit with period [per] and
    periastron passage [tp]. *)
Definition is_true_anomaly_at (per tp e t nu : R) : Prop :=
  exists E, is_ecc_anomaly e (2 * PI * (t - tp) / per) E /\ is_true_anomaly e E nu.

(** [v] is the radial velocity at time [t]. *)
Definition is_rv (per tp e om k t v : R) : Prop :=
  exists nu, is_true_anomaly_at per tp e t nu /\ v = k * (cos (nu + om) + e * cos om).
