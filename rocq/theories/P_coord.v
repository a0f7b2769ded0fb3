(** Properties C39-C42: coordinate conversions and the Earth ellipsoid. *)
From Coq Require Import ZArith Reals Bool List Lra.
From Verif Require Import GoFloat GoMath S_Sphere S_globe M_coord L_trig L_angle L_coord L_globe.
Import ListNotations.
Local Open Scope R_scope.

(** ** C39 *)
Theorem C39_EqToEcl_rotation : forall ra dec eps, - (PI / 2) < dec < PI / 2 ->
  let '(lon, lat) := EqToEcl ra dec (sin eps) (cos eps) in
  - PI < lon <= PI /\ - (PI / 2) <= lat <= PI / 2 /\ dir lon lat = app (rot_x eps) (dir ra dec).
Proof. exact EqToEcl_dir. Qed.
Print Assumptions C39_EqToEcl_rotation.

Theorem C39_EclToEq_rotation : forall lon lat eps, - (PI / 2) < lat < PI / 2 ->
  let '(ra, dec) := EclToEq lon lat (sin eps) (cos eps) in
  0 <= ra < 2 * PI /\ - (PI / 2) <= dec <= PI / 2 /\ dir ra dec = app (rot_x (- eps)) (dir lon lat).
Proof. exact EclToEq_dir. Qed.
Print Assumptions C39_EclToEq_rotation.

Theorem C39_inverse : forall ra dec eps, 0 <= ra < 2 * PI -> - (PI / 2) < dec < PI / 2 ->
  let '(lon, lat) := EqToEcl ra dec (sin eps) (cos eps) in
  - (PI / 2) < lat < PI / 2 -> EclToEq lon lat (sin eps) (cos eps) = (ra, dec).
Proof. exact Ecl_roundtrip. Qed.
Print Assumptions C39_inverse.

Theorem C39_inverse_ecliptic : forall lon lat eps, - PI < lon <= PI -> - (PI / 2) < lat < PI / 2 ->
  let '(ra, dec) := EclToEq lon lat (sin eps) (cos eps) in
  - (PI / 2) < dec < PI / 2 -> EqToEcl ra dec (sin eps) (cos eps) = (lon, lat).
Proof. exact Ecl_roundtrip'. Qed.
Print Assumptions C39_inverse_ecliptic.

Example C39_nonvacuous : EqToEcl 0 0 (sin (PI / 4)) (cos (PI / 4)) = (0, 0).
Proof. exact EqToEcl_example. Qed.

(** ** C40 *)

(** Azimuth (westward from south) and altitude: the direction with the local
    hour angle as longitude, turned about the west-east axis by the colatitude. *)
Theorem C40_EqToHz_rotation : forall ra dec phi psi st, - (PI / 2) < dec < PI / 2 ->
  let '(A, h) := EqToHz ra dec phi psi st in
  - PI < A <= PI /\ - (PI / 2) <= h <= PI / 2 /\ dir A h = app (rot_y (PI / 2 - phi)) (dir (TimeRad st - psi - ra) dec).
Proof. exact EqToHz_dir. Qed.
Print Assumptions C40_EqToHz_rotation.

Theorem C40_HzToEq_rotation : forall A h phi psi st, - (PI / 2) < h < PI / 2 ->
  let '(ra, dec) := HzToEq A h phi psi st in
  0 <= ra < 2 * PI /\ - (PI / 2) <= dec <= PI / 2 /\ dir (TimeRad st - psi - ra) dec = app (rot_y (phi - PI / 2)) (dir A h).
Proof. exact HzToEq_dir. Qed.
Print Assumptions C40_HzToEq_rotation.

Theorem C40_altitude : forall ra dec phi psi st,
  sin (snd (EqToHz ra dec phi psi st)) = sin phi * sin dec + cos phi * cos dec * cos (TimeRad st - psi - ra).
Proof. exact EqToHz_alt. Qed.
Print Assumptions C40_altitude.

Theorem C40_inverse : forall ra dec phi psi st, 0 <= ra < 2 * PI -> - (PI / 2) < dec < PI / 2 ->
  let '(A, h) := EqToHz ra dec phi psi st in
  - (PI / 2) < h < PI / 2 -> HzToEq A h phi psi st = (ra, dec).
Proof. exact Hz_roundtrip. Qed.
Print Assumptions C40_inverse.

Theorem C40_inverse_horizontal : forall A h phi psi st, - PI < A <= PI -> - (PI / 2) < h < PI / 2 ->
  let '(ra, dec) := HzToEq A h phi psi st in
  - (PI / 2) < dec < PI / 2 -> EqToHz ra dec phi psi st = (A, h).
Proof. exact Hz_roundtrip'. Qed.
Print Assumptions C40_inverse_horizontal.

Example C40_nonvacuous : snd (EqToHz 0 (PI / 4) (PI / 2) 0 0) = PI / 4.
Proof. exact EqToHz_example. Qed.

(** ** C41 *)

(** Galactic coordinates: longitude from the node (33 degrees) and latitude in
    the frame whose pole has right ascension 192.25 and declination 27.4 degrees. *)
Theorem C41_EqToGal_rotation : forall ra dec, - (PI / 2) < dec < PI / 2 ->
  let '(l, b) := EqToGal ra dec in
  0 <= l < 2 * PI /\ - (PI / 2) <= b <= PI / 2 /\
  dir l b = app (rot_z (- (33 * (PI / 180) + 3 * PI / 2))) (app (rot_y (PI / 2 - 274 / 10 * (PI / 180)))
              (app (rot_z (19225 / 100 * (PI / 180))) (dir ra dec))).
Proof. exact EqToGal_dir. Qed.
Print Assumptions C41_EqToGal_rotation.

Theorem C41_GalToEq_rotation : forall l b, - (PI / 2) < b < PI / 2 ->
  let '(ra, dec) := GalToEq l b in
  0 <= ra < 2 * PI /\ - (PI / 2) <= dec <= PI / 2 /\
  dir ra dec = app (rot_z (- (19225 / 100 * (PI / 180)))) (app (rot_y (- (PI / 2 - 274 / 10 * (PI / 180))))
                 (app (rot_z (33 * (PI / 180) + 3 * PI / 2)) (dir l b))).
Proof. exact GalToEq_dir. Qed.
Print Assumptions C41_GalToEq_rotation.

Theorem C41_inverse : forall ra dec, 0 <= ra < 2 * PI -> - (PI / 2) < dec < PI / 2 ->
  let '(l, b) := EqToGal ra dec in - (PI / 2) < b < PI / 2 -> GalToEq l b = (ra, dec).
Proof. exact Gal_roundtrip. Qed.
Print Assumptions C41_inverse.

Theorem C41_inverse_galactic : forall l b, 0 <= l < 2 * PI -> - (PI / 2) < b < PI / 2 ->
  let '(ra, dec) := GalToEq l b in - (PI / 2) < dec < PI / 2 -> EqToGal ra dec = (l, b).
Proof. exact Gal_roundtrip'. Qed.
Print Assumptions C41_inverse_galactic.

Theorem C41_isometry : forall r1 d1 r2 d2 t, - (PI / 2) < d1 < PI / 2 -> - (PI / 2) < d2 < PI / 2 ->
  let '(l1, b1) := EqToGal r1 d1 in let '(l2, b2) := EqToGal r2 d2 in
  separation (dir r1 d1) (dir r2 d2) t <-> separation (dir l1 b1) (dir l2 b2) t.
Proof. exact Gal_isometry. Qed.
Print Assumptions C41_isometry.

Theorem C41_pole : snd (EqToGal (19225 / 100 * (PI / 180)) (274 / 10 * (PI / 180))) = PI / 2.
Proof. exact Gal_pole. Qed.
Print Assumptions C41_pole.

Example C41_nonvacuous : - (PI / 2) < 0 < PI / 2 /\ 0 <= 0 < 2 * PI.
Proof. exact range_example. Qed.

(** ** C42 *)

(** The specification: the point of the meridian ellipse with geographic latitude phi. *)
Theorem C42_specification : forall a f phi, 0 < a -> 0 <= f < 1 ->
  on_meridian a f (meridian_x a f phi) (meridian_z a f phi) /\ normal_latitude a f (meridian_x a f phi) (meridian_z a f phi) phi.
Proof. exact meridian_ok. Qed.
Print Assumptions C42_specification.

(** Parallax constants: that point, raised by h metres along the normal, in
    units of the equatorial radius (in km). *)
Theorem C42_ParallaxConstants : forall e phi h, 0 < Er e -> 0 <= Fl e < 1 -> - (PI / 2) < phi < PI / 2 ->
  ParallaxConstants e phi h =
  ((meridian_z (Er e) (Fl e) phi + h / 1000 * sin phi) / Er e, (meridian_x (Er e) (Fl e) phi + h / 1000 * cos phi) / Er e).
Proof. exact Parallax_ok. Qed.
Print Assumptions C42_ParallaxConstants.

Theorem C42_RadiusAtLatitude : forall e phi, RadiusAtLatitude e phi = meridian_x (Er e) (Fl e) phi.
Proof. exact RadiusAtLatitude_ok. Qed.
Print Assumptions C42_RadiusAtLatitude.

(** The radius of curvature is the rate of change of position with latitude. *)
Theorem C42_RadiusOfCurvature : forall e phi, 0 <= Fl e < 1 ->
  derivable_pt_lim (meridian_x (Er e) (Fl e)) phi (- RadiusOfCurvature e phi * sin phi) /\
  derivable_pt_lim (meridian_z (Er e) (Fl e)) phi (RadiusOfCurvature e phi * cos phi).
Proof. exact RadiusOfCurvature_ok. Qed.
Print Assumptions C42_RadiusOfCurvature.

Theorem C42_OneDegree : forall r, 360 * OneDegreeOfLongitude r = 2 * PI * r /\ 360 * OneDegreeOfLatitude r = 2 * PI * r.
Proof. exact OneDegree_ok. Qed.
Print Assumptions C42_OneDegree.

Theorem C42_axes : forall e, 0 <= Fl e < 1 -> axisB e * axisB e = axisA e * axisA e * (1 - Eccentricity e * Eccentricity e).
Proof. exact axes_ok. Qed.
Print Assumptions C42_axes.

Theorem C42_ApproxAngularDistance : forall p1 p2,
  ApproxAngularDistance p1 p2 = dot (dir (Lon p1) (Lat p1)) (dir (Lon p2) (Lat p2)).
Proof. exact Approx_ok. Qed.
Print Assumptions C42_ApproxAngularDistance.

Theorem C42_Distance_symmetric : forall e c1 c2, Distance e c1 c2 = Distance e c2 c1.
Proof. exact Distance_sym. Qed.
Print Assumptions C42_Distance_symmetric.

(** A number for any two places neither equal nor opposite; on a sphere, radius
    times angular distance. *)
Theorem C42_Distance_defined : forall e c1 c2,
  -1 < dot (dir (Lon c1) (Lat c1)) (dir (Lon c2) (Lat c2)) < 1 -> exists d, Distance e c1 c2 = Fin d.
Proof. exact Distance_defined. Qed.
Print Assumptions C42_Distance_defined.

Theorem C42_Distance_sphere : forall r c1 c2,
  -1 < dot (dir (Lon c1) (Lat c1)) (dir (Lon c2) (Lat c2)) < 1 ->
  exists th, separation (dir (Lon c1) (Lat c1)) (dir (Lon c2) (Lat c2)) th /\ Distance (mkEllipsoid r 0) c1 c2 = Fin (r * th).
Proof. exact Distance_sphere. Qed.
Print Assumptions C42_Distance_sphere.

(** The distance of a place to itself is not 0 but NaN; so is that to its antipode. *)
Theorem C42_Distance_equal_refuted : forall e c, Distance e c c = XNaN.
Proof. exact Distance_equal. Qed.
Print Assumptions C42_Distance_equal_refuted.

Theorem C42_Distance_undefined : forall e c1 c2,
  dot (dir (Lon c1) (Lat c1)) (dir (Lon c2) (Lat c2)) = 1 \/ dot (dir (Lon c1) (Lat c1)) (dir (Lon c2) (Lat c2)) = -1 ->
  Distance e c1 c2 = XNaN.
Proof. exact Distance_undefined. Qed.
Print Assumptions C42_Distance_undefined.

Example C42_nonvacuous : 0 < Er Earth76 /\ 0 <= Fl Earth76 < 1 /\ -1 < dot (dir 0 0) (dir (PI / 2) 0) < 1.
Proof. exact globe_example. Qed.
