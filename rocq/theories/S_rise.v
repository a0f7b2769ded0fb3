(** Specification for sidereal time and for rising, transit and setting. *)
From Coq Require Import ZArith Reals.
From Verif Require Import S_Sphere.
Local Open Scope R_scope.

(** Equality of two times of day, in seconds, up to whole days; nearness. *)
Definition same_time (a b : R) : Prop := exists k : Z, a = b + IZR k * 86400.
Definition near_time (tol a b : R) : Prop := exists k : Z, Rabs (a - (b + IZR k * 86400)) <= tol.

(** The Julian day of 0h UT of the civil day containing jd (Julian days begin at noon). *)
Definition midnight (jd0 jd : R) : Prop := (exists n : Z, jd0 = IZR n - 1 / 2) /\ jd0 <= jd < jd0 + 1.

(** IAU 1982 mean sidereal time at 0h UT, in seconds; T in Julian centuries from J2000. *)
Definition sidereal0 (T : R) : R := 24110.54841 + 8640184.812866 * T + 0.093104 * T * T + 0.0000062 * T * T * T.

(** Sine of the altitude of a body of declination d at hour angle H for an
    observer at latitude phi: cosine of its distance from the zenith. *)
Definition sin_alt (phi d H : R) : R := dot (dir 0 phi) (dir H d).

(** Local hour angle, in radians, at time t (seconds after 0h UT): sidereal time
    theta0 at 0h and a clock gaining at the given rate; longitude positive west. *)
Definition hour_angle (rate theta0 lon a t : R) : R := (theta0 + rate * t) * (PI / 43200) - lon - a.

(** The parabola through (-86400, y0), (0, y1), (86400, y2). *)
Definition table3 (y0 y1 y2 t : R) : R := y1 + t / 86400 / 2 * ((y2 - y0) + t / 86400 * (y2 - 2 * y1 + y0)).
