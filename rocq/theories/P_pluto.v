(** Property theorems: position of Pluto (C89). *)
From Coq Require Import ZArith Reals.
From Verif Require Import GoFloat GoMath S_Sphere S_precess S_solar S_moon M_base M_coord M_precess M_vsop M_solar M_physical M_orbit M_pluto S_physical L_orbit2 L_pluto L_saturnmoons3.
Local Open Scope R_scope.

(** At every date the heliocentric place stays between the perihelion and the aphelion of Pluto, within
    its inclination of the ecliptic, and near the mean longitude. *)
Theorem C89_range : forall jde, let T := (jde - 2451545) / 36525 in let '(l, b, r) := Heliocentric jde in
  Rabs (l - degrees (238.958116 + 144.96 * T)) <= degrees 35.0692 /\ Rabs (b + degrees 3.908239) <= degrees 21.4461 /\ 29.64 <= r <= 51.81.
Proof. exact Heliocentric_range. Qed.
Print Assumptions C89_range.
(** The motion repeats, up to the small perturbations, after every number of periods of 248.3 years. *)
Theorem C89_period : forall jde n, let '(l, b, r) := Heliocentric jde in let '(l', b', r') := Heliocentric (jde + IZR n * (360 / 144.96 * 36525)) in
  near_turns (l' - l) (degrees 0.1343) /\ Rabs (b' - b) <= degrees 0.0394 /\ Rabs (r' - r) <= 0.0222.
Proof. exact Heliocentric_period. Qed.
Print Assumptions C89_period.
(** Rectangular equatorial coordinates of that place (the rounded sine and cosine of the obliquity of 2000). *)
Theorem C89_rectangular : forall jde, let '(l, b, r) := Heliocentric jde in exists se ce, Rabs (se * se + ce * ce - 1) <= 1 / 100000000 /\ se = SOblJ2000 /\ ce = COblJ2000 /\
  vec_of (pl_xyz jde) = scale r (mkvec (vx (dir l b)) (vy (dir l b) * ce - vz (dir l b) * se) (vy (dir l b) * se + vz (dir l b) * ce)) /\ 29 <= norm (vec_of (pl_xyz jde)) <= 52.
Proof. exact pl_xyz_value. Qed.
Print Assumptions C89_rectangular.
(** The astrometric place: direction, from the Earth at the given time, of where Pluto was when the light left it. *)
Theorem C89_astrometric : forall jde e, let X := vec_of (PositionJ2000 e jde) in 0 < norm X <= 20 -> let '(ra, dec) := PlutoAstrometric jde e in
  let u0 := vadd X (vec_of (pl_xyz jde)) in let u := vadd X (vec_of (pl_xyz (jde - LightTime (norm u0)))) in
  0 <= ra < 2 * PI /\ - (PI / 2) <= dec <= PI / 2 /\ u <> vzero /\ scale (norm u) (dir ra dec) = u.
Proof. exact PlutoAstrometric_value. Qed.
Print Assumptions C89_astrometric.
(** The hypothesis on the distance of the Sun is met by an Earth at rest at distance 1. *)
Example C89_nonvacuous : forall L jde, 0 < norm (vec_of (PositionJ2000 (fixed L 1) jde)) <= 20.
Proof. exact fixed_sun. Qed.
