(** Specification for the standard altitudes of rise and for semidiameters. *)
From Coq Require Import Reals.
Local Open Scope R_scope.

(** A sphere of radius r whose centre is at the distance D subtends the semidiameter s. *)
Definition subtends (r D s : R) : Prop := 0 <= s <= PI / 2 /\ D * sin s = r.
(** The geocentric altitude of the centre of a body of horizontal parallax p and semidiameter s whose upper limb, raised by
    the refraction r, is seen on the horizon: parallax lowers the body by p there, the limb is s above the centre. *)
Definition limb_altitude (p s r : R) : R := p - s - r.
(** Kilometres in an astronomical unit. *)
Definition au_km : R := 149597870.
