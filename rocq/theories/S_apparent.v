(** Specification for the apparent places of stars. *)
From Coq Require Import ZArith Reals.
From Verif Require Import GoFloat GoMath M_base M_precess M_apparent S_Sphere S_precess S_solar.
Local Open Scope R_scope.

(** Velocity of the Earth by the Ron-Vondrak expression: equator of J2000, in
    units of the speed of light (the table is in units of 1e-8 AU per day). *)
Definition rv_velocity (jd : R) : vec := scale (/ 17314463350) (vec_of (rv_sum ((jd - 2451545) / 36525))).

(** From the equator of J2000 to the ecliptic of date: the obliquity of J2000 and
    the ecliptic precession from 2000 to the Julian year of the date. *)
Definition to_ecliptic_of_date (jd : R) (v : vec) : vec :=
  let p := NewEclipticPrecessor 2000 (2000 + (jd - 2451545) / 365.25) in
  ecliptic_precession (epeta p) (eppi p) (epp p) (app (rot_x (MeanObliquity 2451545)) v).
(** From the equator of J2000 to the equator of date. *)
Definition to_equator_of_date (jd : R) (v : vec) : vec := app (rot_x (- MeanObliquity jd)) (to_ecliptic_of_date jd v).
