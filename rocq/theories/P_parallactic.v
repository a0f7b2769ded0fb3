(** Property theorems: parallactic angle, ecliptic and diurnal path at the horizon (C79). *)
From Coq Require Import ZArith Reals.
From Verif Require Import GoFloat GoMath S_Sphere S_solar S_parallactic M_parallactic L_parallactic.
Local Open Scope R_scope.

(** The parallactic angle is the position angle of the zenith seen from the object. *)
Theorem C79_parallactic : forall phi dec H, 0 < cos phi -> (dot (dir (- H) dec) (dir 0 phi)) ^ 2 <> 1 ->
  - PI < ParallacticAngle phi dec H <= PI /\ position_angle (- H) dec (dir 0 phi) (ParallacticAngle phi dec H).
Proof. exact Parallactic_value. Qed.
Print Assumptions C79_parallactic.

(** On the horizon, west of the meridian, the short form agrees; east of it the sign is reversed. *)
Theorem C79_on_horizon : forall phi dec H, 0 < cos phi -> 0 < cos dec -> on_horizon phi H dec -> 0 <= sin H ->
  Rabs (sin phi / cos dec) <= 1 /\
  ParallacticAngleOnHorizon phi dec = ParallacticAngle phi dec H /\ (0 < sin H -> ParallacticAngle phi dec (- H) = - ParallacticAngleOnHorizon phi dec).
Proof. exact OnHorizon_value. Qed.
Print Assumptions C79_on_horizon.

(** Both longitudes are on the horizon, there are no others, and the angle is that of the planes. *)
Theorem C79_ecliptic_at_horizon : forall eps phi theta, 0 < cos phi ->
  let '(l1, l2, i) := EclipticAtHorizon eps phi theta in let z := dir (TimeRad theta) phi in
  0 <= l1 <= PI /\ l2 = l1 + PI /\ dot (ecliptic_point eps l1) z = 0 /\ dot (ecliptic_point eps l2) z = 0 /\
  separation (ecliptic_pole eps) z i /\
  ((dot (ecliptic_pole eps) z) ^ 2 <> 1 -> forall l, dot (ecliptic_point eps l) z = 0 -> same_angle l l1 \/ same_angle l l2).
Proof. exact EclHor_value. Qed.
Print Assumptions C79_ecliptic_at_horizon.

(** The direction of the ecliptic against the parallel of declination: the angle turns from the
    ecliptic to the east. *)
Theorem C79_ecliptic_at_equator : forall eps l a d, 0 < cos eps -> 0 < cos d -> equatorial_of l 0 eps a d ->
  - (PI / 2) < EclipticAtEquator l eps < PI / 2 /\
  dot (ecliptic_tangent eps l) (east a d) = cos (EclipticAtEquator l eps) /\ dot (ecliptic_tangent eps l) (north a d) = - sin (EclipticAtEquator l eps).
Proof. exact EclEq_value. Qed.
Print Assumptions C79_ecliptic_at_equator.

(** The sine of the angle is the vertical part of the diurnal motion; negative in the southern
    hemisphere. *)
Theorem C79_diurnal_path : forall dec phi H, - (PI / 2) < phi < PI / 2 -> 0 < cos dec -> on_horizon phi H dec ->
  exists j, DiurnalPathAtHorizon dec phi = Fin j /\ - (PI / 2) <= j <= PI / 2 /\
    (0 <= phi -> sin j = Rabs (dot (east (- H) dec) (dir 0 phi))) /\ (phi < 0 -> sin j = - Rabs (dot (east (- H) dec) (dir 0 phi))).
Proof. exact DiurnalPath_value. Qed.
Print Assumptions C79_diurnal_path.
Theorem C79_never_on_horizon : forall dec phi, 0 < cos phi -> 0 < cos dec -> (forall H, ~ on_horizon phi H dec) -> DiurnalPathAtHorizon dec phi = XNaN.
Proof. exact DiurnalPath_nan. Qed.
Print Assumptions C79_never_on_horizon.

Example C79_nonvacuous :
  (on_horizon (PI / 4) (PI / 2) 0 /\ 0 < sin (PI / 2) /\ ParallacticAngleOnHorizon (PI / 4) 0 = PI / 4 /\ ParallacticAngle (PI / 4) 0 (PI / 2) = PI / 4 /\ DiurnalPathAtHorizon 0 (PI / 4) = Fin (PI / 4)) /\
  (forall eps, EclipticAtHorizon eps 0 0 = (PI / 2, PI / 2 + PI, PI / 2)).
Proof. exact parallactic_examples. Qed.
Print Assumptions C79_nonvacuous.
