(** Specification of diurnal parallax. *)
From Coq Require Import Reals.
From Verif Require Import S_Sphere.
Local Open Scope R_scope.

(** Geocentric equatorial position of an observer, in Earth radii, at local sidereal time
    th: rc from the axis, rs north of the equator. *)
Definition observer (rs rc th : R) : vec := mkvec (rc * cos th) (rc * sin th) rs.
(** Position of a body of horizontal parallax p in the direction (a, d). *)
Definition body (p a d : R) : vec := scale (1 / sin p) (dir a d).
(** The point v is seen in the direction with longitude a, latitude d. *)
Definition seen_at (v : vec) (a d : R) : Prop :=
  exists r, 0 < r /\ v = scale r (dir a d).
