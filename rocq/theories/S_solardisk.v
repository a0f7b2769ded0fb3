(** Specification vocabulary for the solar disk, in ecliptic coordinates: the Sun's equator is
    inclined by i to the ecliptic with its ascending node at longitude K. *)
From Coq Require Import Reals.
From Verif Require Import S_Sphere.
Local Open Scope R_scope.

(** Coordinates relative to node and equator of the direction v. *)
Definition sun_frame (i K : R) (v : vec) : vec := app (rot_x i) (app (rot_z K) v).
(** The north pole of the Sun. *)
Definition sun_pole (i K : R) : vec := mkvec (sin K * sin i) (- cos K * sin i) (cos i).
