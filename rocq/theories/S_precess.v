(** Specification for precession, reduction of orbital elements, proper motion,
    nutation and aberration. *)
From Coq Require Import Reals.
From Verif Require Import GoFloat GoMath M_base M_precess S_Sphere.
Local Open Scope R_scope.

(** Equatorial precession: rotation of the frame by the angles zeta, theta, z. *)
Definition precession (zeta z theta : R) (v : vec) : vec := app (rot_z (- z)) (app (rot_y theta) (app (rot_z (- zeta)) v)).

(** Ecliptic precession: the new ecliptic is inclined by eta to the old one along
    the line at longitude pi of the old and pi + p of the new equinox. *)
Definition ecliptic_precession (eta pi p : R) (v : vec) : vec :=
  app (rot_z (- (pi + p))) (app (rot_x eta) (app (rot_z pi) v)).

(** Components, along the axes of an orbit (toward perihelion, ahead of it in
    the plane, normal), of the vector v given in the frame of the elements
    (inclination, argument of perihelion, node). *)
Definition orbit_frame (inc peri node : R) (v : vec) : vec := app (rot_z peri) (app (rot_x inc) (app (rot_z node) v)).

(** Velocity on the unit sphere of a point at (l, b) whose coordinates change at
    the rates ml, mb. *)
Definition velocity (l b ml mb : R) : vec := vadd (scale (cos b * ml) (east l b)) (scale mb (north l b)).

(** The part of v perpendicular to the unit vector u. *)
Definition across (v u : vec) : vec := vsub v (scale (dot v u) u).

(** Velocity of the Earth in its orbit around the Sun, in units of the mean
    velocity: solar longitude s, eccentricity e, longitude of perihelion p. *)
Definition earth_velocity (s e p : R) : vec := mkvec (sin s - e * sin p) (- (cos s - e * cos p)) 0.

(** The pole of an orbit. *)
Definition orbit_pole (inc node : R) : vec := mkvec (sin inc * sin node) (- (sin inc * cos node)) (cos inc).

(** Equinox B1950 to J2000.  The constants S and C of the code are n times the sine
    and cosine of the angle eta; the exact reduction is the rotation of the frame
    with eta and the node longitudes 174.298782 and 174.997194 degrees. *)
Definition B1950_eta : R := atan2 B1950_S B1950_C.
Definition B1950_n : R := hypot B1950_C B1950_S.
Definition B1950_frame (v : vec) : vec :=
  app (rot_z (- AngleFromDeg (174997194 / 1000000))) (app (rot_x B1950_eta) (app (rot_z (AngleFromDeg (174298782 / 1000000))) v)).

(** Velocity of the Earth in units of the speed of light (kappa: constant of
    aberration), ecliptic frame. *)
Definition earthV (jd : R) : vec :=
  let T := J2000Century (fl := RFlt) jd in scale kappa (earth_velocity (fst (solarTrue T)) (solarEccentricity T) (perihelion T)).
