(** The meridian ellipse with semiaxes a and a(1-f): its point with geographic
    latitude phi (the latitude of the normal), as (distance from the axis, height
    above the equator). *)
From Coq Require Import Reals.
Local Open Scope R_scope.

Definition on_meridian (a f x z : R) : Prop := (x / a) * (x / a) + (z / (a * (1 - f))) * (z / (a * (1 - f))) = 1.
(** The outward normal of the ellipse at (x, z), (x/a^2, z/b^2), has latitude phi. *)
Definition normal_latitude (a f x z phi : R) : Prop :=
  exists k, 0 < k /\ x / (a * a) = k * cos phi /\ z / (a * (1 - f) * (a * (1 - f))) = k * sin phi.
Definition meridian_root (f phi : R) : R := sqrt (cos phi * cos phi + (1 - f) * (1 - f) * (sin phi * sin phi)).
Definition meridian_x (a f phi : R) : R := a * cos phi / meridian_root f phi.
Definition meridian_z (a f phi : R) : R := a * ((1 - f) * (1 - f)) * sin phi / meridian_root f phi.
(** A point (x, z) seen from the centre: its distance rho and its latitude psi. *)
Definition seen_from_centre (x z rho psi : R) : Prop := 0 < rho /\ - (PI / 2) <= psi <= PI / 2 /\ x = rho * cos psi /\ z = rho * sin psi.

(** Length of the meridian from the equator: its rate of change with latitude is the speed of the point. *)
Definition meridian_length (a f : R) (arc : R -> R) : Prop :=
  forall t, - (PI / 2) <= t <= PI / 2 -> exists vx vz, derivable_pt_lim (meridian_x a f) t vx /\ derivable_pt_lim (meridian_z a f) t vz /\
    derivable_pt_lim arc t (sqrt (vx * vx + vz * vz)).
