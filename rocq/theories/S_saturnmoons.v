(** Specification: orbits of satellites and their view from the Earth. *)
From Coq Require Import Reals.
From Verif Require Import S_Sphere.
Local Open Scope R_scope.

(** The place, at distance r and angle th from the node, on the orbit with the given node and inclination. *)
Definition on_orbit (node inc th r : R) : vec :=
  scale r (app (transpose (rot_z node)) (app (transpose (rot_x inc)) (mkvec (cos th) (sin th) 0))).
(** The same for a plane of reference which itself has node N and inclination J: coordinates in the
    frame whose x axis is that node and whose z axis is the pole of that plane. *)
Definition plane_coords (N J : R) (v : vec) : vec := app (rot_x J) (app (rot_z N) v).
(** Axes of the sky at the direction (l, b): X to the west, Y along the projection of the direction pole,
    Z away from the observer, for the vector v; h is the length of the projection of the pole. *)
Definition sky_axes (l b : R) (pole v : vec) (h X Y Z : R) : Prop :=
  let west p := - dot p (east l b) in let up p := dot p (north l b) in
  0 <= h /\ h * h = west pole * west pole + up pole * up pole /\
  h * X = west v * up pole - up v * west pole /\ h * Y = west v * west pole + up v * up pole /\ Z = dot v (dir l b).
(** Place on an ellipse: semimajor axis a, eccentricity e, true anomaly v, longitude of pericentre p,
    node and inclination. *)
Definition ellipse_place (a e p node inc v : R) : vec := on_orbit node inc (v + p - node) (a * (1 - e * e) / (1 + e * cos v)).
(** The equation of the centre as a series of sines of multiples of the mean anomaly M, to the fifth power of e. *)
Definition centre_series (M e : R) : R :=
  (2 * e - e ^ 3 / 4 + 5 / 96 * e ^ 5) * sin M + (5 / 4 * e ^ 2 - 11 / 24 * e ^ 4) * sin (2 * M) +
  (13 / 12 * e ^ 3 - 43 / 64 * e ^ 5) * sin (3 * M) + 103 / 96 * e ^ 4 * sin (4 * M) + 1097 / 960 * e ^ 5 * sin (5 * M).
