(** Specification for the functions returning the event nearest a date. *)
From Coq Require Import ZArith Reals.
Local Open Scope R_scope.

(** k is an index of the class q + Z, and no index of the class is nearer to x. *)
Definition nearest_index (q x k : R) : Prop :=
  (exists n : Z, k = q + IZR n) /\ forall n : Z, Rabs (k - x) <= Rabs (q + IZR n - x).

(** Julian ephemeris day of a decimal year (Julian years from J2000). *)
Definition yearJDE (y : R) : R := 2451545 + 365.25 * (y - 2000).

(** No event of the family (one per integer) is nearer to date t than [e]. *)
Definition nearest_event (ev : Z -> R) (t e : R) : Prop :=
  (exists n : Z, e = ev n) /\ forall n : Z, Rabs (e - t) <= Rabs (ev n - t).

(** Decimal years of index k of the Moon's months (Meeus' approximate formulas for k). *)
Definition lunation_year (k : R) : R := 2000 + k / 12.3685.
Definition anomalistic_year (k : R) : R := 1999.97 + k / 13.2555.
Definition draconic_year (k : R) : R := 2000.05 + k / 13.4223.
Definition tropical_year (k : R) : R := 2000.03 + k / 13.3686.

(** u is strictly farther (aphelion) or strictly nearer (perihelion) than v. *)
Definition more_extreme (far : bool) (u v : R) : Prop := if far then v < u else u < v.

(** Mean phases of the Moon, Meeus (49.1): k integer for new moons, + 1/4, 1/2, 3/4. *)
Definition mean_lunation (k : R) : R :=
  let T := k / 1236.85 in
  2451550.09766 + 29.530588861 * k + 0.00015437 * (T * T) - 0.00000015 * (T * T * T) + 0.00000000073 * (T * T * T * T).
(** Mean apsides, Meeus (50.1): k integer for perigees, + 1/2 for apogees. *)
Definition mean_apsis (k : R) : R :=
  let T := k / 1325.55 in
  2451534.6698 + 27.55454989 * k - 0.0006691 * (T * T) - 0.000001098 * (T * T * T) + 0.0000000052 * (T * T * T * T).
(** The phase computed is the one of the index of class q nearest to the year. *)
Definition nearest_phase (q y e : R) : Prop :=
  exists k, nearest_index q ((y - 2000) * 12.3685) k /\ e = mean_lunation k.
Definition nearest_apsis (q y e : R) : Prop :=
  exists k, nearest_index q ((y - 1999.97) * 13.2555) k /\ e = mean_apsis k.
(** (x, v) comes from a sample at m, a whole number of steps d from j, that is more extreme than its neighbours: x is within half a
    step of m and v at least as extreme as the sample. *)
Definition extremum_near (far : bool) (r : R -> R) (d j x v : R) : Prop :=
  exists m, (exists z : Z, m = j + IZR z * d) /\ more_extreme far (r m) (r (m - d)) /\ more_extreme far (r m) (r (m + d)) /\
    Rabs (x - m) < Rabs d / 2 /\ (if far then r m <= v else v <= r m).
