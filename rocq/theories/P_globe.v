(** Property C109: the radius of the Earth and the geocentric latitude. *)
From Coq Require Import ZArith Reals Bool List Lra.
From Verif Require Import GoFloat GoMath S_globe M_coord L_globe2.
Local Open Scope R_scope.

(** Seen from the centre of the ellipsoid Earth76, the point of the surface with geographic latitude
    phi has a distance rho and a geocentric latitude psi. *)
Theorem C109_point : forall phi, - (PI / 2) <= phi <= PI / 2 ->
  exists rho psi, seen_from_centre (meridian_x (Er Earth76) (Fl Earth76) phi) (meridian_z (Er Earth76) (Fl Earth76) phi) rho psi.
Proof. exact seen_total. Qed.
Print Assumptions C109_point.

(** GeocentricLatitudeDifference is phi - psi within 0.02 arc seconds. *)
Theorem C109_latitude : forall phi rho psi,
  seen_from_centre (meridian_x (Er Earth76) (Fl Earth76) phi) (meridian_z (Er Earth76) (Fl Earth76) phi) rho psi -> - (PI / 2) <= phi <= PI / 2 ->
  Rabs (GeocentricLatitudeDifference phi - (phi - psi)) <= AngleFromSec (2 / 100).
Proof. exact latitude_ok. Qed.
Print Assumptions C109_latitude.

(** Rho is rho in equatorial radii within 5e-8, a third of a metre. *)
Theorem C109_Rho : forall phi rho psi,
  seen_from_centre (meridian_x (Er Earth76) (Fl Earth76) phi) (meridian_z (Er Earth76) (Fl Earth76) phi) rho psi ->
  Rabs (Rho phi - rho / Er Earth76) <= 5 / 10 ^ 8.
Proof. exact Rho_ok. Qed.
Print Assumptions C109_Rho.

(** ParallaxConstants gives the same point exactly. *)
Theorem C109_ParallaxConstants : forall phi rho psi, - (PI / 2) < phi < PI / 2 ->
  seen_from_centre (meridian_x (Er Earth76) (Fl Earth76) phi) (meridian_z (Er Earth76) (Fl Earth76) phi) rho psi ->
  ParallaxConstants Earth76 phi 0 = (rho / Er Earth76 * sin psi, rho / Er Earth76 * cos psi).
Proof. exact seen_parallax. Qed.
Print Assumptions C109_ParallaxConstants.

Example C109_nonvacuous : - (PI / 2) < PI / 4 < PI / 2 /\ exists rho psi,
  seen_from_centre (meridian_x (Er Earth76) (Fl Earth76) (PI / 4)) (meridian_z (Er Earth76) (Fl Earth76) (PI / 4)) rho psi /\ 0 < PI / 4 - psi.
Proof. exact seen_example. Qed.
