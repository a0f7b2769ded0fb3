(** Specification vocabulary: published mean motions.  Arguments in degrees for T Julian centuries of 36525
    days from J2000 (2000 January 1, 12h TD).  For the Moon: Chapront ELP-2000/82 as given by Meeus ch. 47. *)
From Coq Require Import Reals.
Local Open Scope R_scope.

(** Mean elongation of the Moon from the Sun; 0: new, 90: first quarter, 180: full, 270: last quarter. *)
Definition elongation (T : R) : R := 297.8501921 + 445267.1114034 * T - 0.0018819 * T ^ 2 + T ^ 3 / 545868 - T ^ 4 / 113065000.
(** Mean anomaly of the Sun. *)
Definition sun_anomaly (T : R) : R := 357.5291092 + 35999.0502909 * T - 0.0001536 * T ^ 2 + T ^ 3 / 24490000.
(** Mean anomaly of the Moon; 0: perigee, 180: apogee. *)
Definition moon_anomaly (T : R) : R := 134.9633964 + 477198.8675055 * T + 0.0087414 * T ^ 2 + T ^ 3 / 69699 - T ^ 4 / 14712000.
(** Mean distance of the Moon from its ascending node; 0: at that node, 180: at the other. *)
Definition node_distance (T : R) : R := 93.272095 + 483202.0175233 * T - 0.0036539 * T ^ 2 - T ^ 3 / 3526000 + T ^ 4 / 863310000.
(** Mean longitude of the Moon. *)
Definition moon_longitude (T : R) : R := 218.3164477 + 481267.88123421 * T - 0.0015786 * T ^ 2 + T ^ 3 / 538841 - T ^ 4 / 65194000.
(** Longitude of the mean ascending node. *)
Definition node_longitude (T : R) : R := 125.0445479 - 1934.1362891 * T + 0.0020754 * T ^ 2 + T ^ 3 / 467441 - T ^ 4 / 60616000.
(** Mean longitude of the Earth (of the Sun, and half a turn). *)
Definition earth_longitude (T : R) : R := 100.46646 + 36000.76983 * T + 0.0003032 * T ^ 2.

(** Julian centuries from J2000 to the Julian day jd. *)
Definition centuries (jd : R) : R := (jd - 2451545) / 36525.
