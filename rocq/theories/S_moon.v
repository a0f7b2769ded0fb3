(** Specification vocabulary for the Moon: the selenographic frame. *)
From Coq Require Import Reals.
From Verif Require Import S_Sphere S_precess S_solar S_physical.
Local Open Scope R_scope.

(** The frame fixed to the Moon's figure.  Its equator is inclined by I to the ecliptic, with the
    descending node at longitude Om (Cassini's laws); the prime meridian points to the Earth when
    the Moon is in its mean longitude Om + F. *)
Definition selenographic (I0 Om F : R) (v : vec) : vec := app (rot_z (F + PI)) (plane_frame (- I0) Om v).
(** The north pole of that equator, in ecliptic coordinates. *)
Definition lunar_pole (I0 Om : R) : vec := dir (Om + PI / 2) (PI / 2 - I0).
(** The angle x is within d of whole turns. *)
Definition near_turns (x d : R) : Prop := exists k : Z, Rabs (x - IZR k * (2 * PI)) <= d.
