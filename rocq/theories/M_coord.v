(** Models of packages coord and globe (v3/coord/coord.go, v3/globe/globe.go), on
    exact reals (see GoMath).  RA.Sincos, Angle.Sincos are sine and cosine; a
    right ascension, an angle is a real number of radians; a sidereal time is a
    real number of seconds. *)
From Coq Require Import ZArith Reals Bool Lra.
From Flocq Require Import Core.
From Verif Require Import GoFloat GoMath.
Local Open Scope R_scope.

(** ** coord *)

(** coord/coord.go:66-72 *)
Definition EqToEcl (ra dec se ce : R) : R * R :=
  (atan2 (sin ra * ce + sin dec / cos dec * se) (cos ra),
   asin (sin dec * ce - cos dec * se * sin ra)).

(** coord/coord.go:96-102 *)
Definition EclToEq (lon lat se ce : R) : R * R :=
  (RAFromRad (atan2 (sin lon * ce - sin lat / cos lat * se) (cos lon)),
   asin (sin lat * ce + cos lat * se * sin lon)).

(** coord/coord.go:130-138 *)
Definition HzToEq (A h phi psi st : R) : R * R :=
  let H := atan2 (sin A) (cos A * sin phi + sin h / cos h * cos phi) in
  (RAFromRad (TimeRad st - psi - H), asin (sin phi * sin h - cos phi * cos h * cos A)).

(** coord/coord.go:213-221 *)
Definition EqToHz (ra dec phi psi st : R) : R * R :=
  let H := TimeRad st - psi - ra in
  (atan2 (sin H) (cos H * sin phi - sin dec / cos dec * cos phi),
   asin (sin phi * sin dec + cos phi * cos dec * cos H)).

(** coord/coord.go:150-160.  unit.NewRA(12, 49, 0) is 12 hours 49 minutes. *)
Definition GalacticNorthRA : R := RAFromRad ((12 + 49 / 60) * (PI / 12)).
Definition GalacticNorthDec : R := AngleFromDeg (274 / 10).
Definition Galactic0Lon : R := AngleFromDeg 33.

(** coord/coord.go:167-178 *)
Definition GalToEq (l b : R) : R * R :=
  let dLon := l - Galactic0Lon - PI / 2 in
  let sg := sin GalacticNorthDec in let cg := cos GalacticNorthDec in
  let y := atan2 (sin dLon) (cos dLon * sg - sin b / cos b * cg) in
  (RAFromRad (y + GalacticNorthRA - PI), asin (sin b * sg + cos b * cg * cos dLon)).

(** coord/coord.go:244-255 *)
Definition EqToGal (ra dec : R) : R * R :=
  let da := GalacticNorthRA - ra in
  let sg := sin GalacticNorthDec in let cg := cos GalacticNorthDec in
  let x := atan2 (sin da) (cos da * sg - sin dec / cos dec * cg) in
  (Mod1 (Galactic0Lon + 15 / 10 * PI - x), asin (sin dec * sg + cos dec * cg * cos da)).

(** ** globe *)

(** globe/globe.go:19-22 *)
Record Ellipsoid := mkEllipsoid { Er : R; Fl : R }.
(** globe/globe.go:25 *)
Definition Earth76 : Ellipsoid := mkEllipsoid (637814 / 100) (1 / (298257 / 1000)).
(** globe/globe.go:30-32 *)
Definition axisA (e : Ellipsoid) : R := Er e.
(** globe/globe.go:37-39 *)
Definition axisB (e : Ellipsoid) : R := Er e * (1 - Fl e).
(** globe/globe.go:42-44 *)
Definition Eccentricity (e : Ellipsoid) : R := sqrt ((2 - Fl e) * Fl e).

(** globe/globe.go:50-56 *)
Definition ParallaxConstants (e : Ellipsoid) (phi h : R) : R * R :=
  let boa := 1 - Fl e in
  let u := atan (boa * tan phi) in
  let hoa := h * (1 / 1000) / Er e in
  (sin u * boa + hoa * sin phi, cos u + hoa * cos phi).

(** globe/globe.go:61-64 *)
Definition Rho (phi : R) : R := 9983271 / 10000000 + 16764 / 10000000 * cos (phi * 2) - 35 / 10000000 * cos (phi * 4).

(** globe/globe.go:70-73 *)
Definition RadiusAtLatitude (e : Ellipsoid) (phi : R) : R :=
  axisA e * cos phi / sqrt (1 - (2 - Fl e) * Fl e * sin phi * sin phi).

(** globe/globe.go:81-83 *)
Definition OneDegreeOfLongitude (rp : R) : R := rp * PI / 180.

(** globe/globe.go:94-98; math.Pow(x, 1.5) for x > 0. *)
Definition RadiusOfCurvature (e : Ellipsoid) (phi : R) : R :=
  let s := sin phi in
  let e2 := (2 - Fl e) * Fl e in
  axisA e * (1 - e2) / Rpower (1 - e2 * s * s) (3 / 2).

(** globe/globe.go:105-107 *)
Definition OneDegreeOfLatitude (rm : R) : R := rm * PI / 180.

(** globe/globe.go:111-116 *)
Definition GeocentricLatitudeDifference (phi : R) : R :=
  AngleFromSec (69273 / 100 * sin (phi * 2) - 116 / 100 * sin (phi * 4)).

(** globe/globe.go:121-124 *)
Record Coord := mkCoord { Lat : R; Lon : R }.

(** globe/globe.go:129-133 *)
Definition ApproxAngularDistance (p1 p2 : Coord) : R :=
  sin (Lat p1) * sin (Lat p2) + cos (Lat p1) * cos (Lat p2) * cos (Lon p1 - Lon p2).

(** globe/globe.go:139-141 *)
Definition ApproxLinearDistance (d : R) : R := 6371 * d.

(** math.Atan on reals with infinities. *)
Definition xatan (a : xreal) : xreal :=
  match a with Fin x => Fin (atan x) | XInf s => Fin (if s then - (PI / 2) else PI / 2) | XNaN => XNaN end.
Local Notation "a +x b" := (xadd a b) (at level 50, left associativity).
Local Notation "a -x b" := (xadd a (xneg b)) (at level 50, left associativity).
Local Notation "a *x b" := (xmul a b) (at level 40, left associativity).
Local Notation "a /x b" := (xdiv a b) (at level 40, left associativity).

(** globe/globe.go:150-163.  Reals with infinities and NaN, because both s and c
    can be zero. *)
Definition Distance (e : Ellipsoid) (c1 c2 : Coord) : xreal :=
  let sq x := x * x in
  let f := (Lat c1 + Lat c2) / 2 in
  let g := (Lat c1 - Lat c2) / 2 in
  let l := (Lon c1 - Lon c2) / 2 in
  let s2f := sq (sin f) in let c2f := sq (cos f) in
  let s2g := sq (sin g) in let c2g := sq (cos g) in
  let s2l := sq (sin l) in let c2l := sq (cos l) in
  let s := s2g * c2l + c2f * s2l in
  let c := c2g * c2l + s2f * s2l in
  let w := xatan (xsqrt (Fin s /x Fin c)) in
  let r := xsqrt (Fin (s * c)) /x w in
  let d := Fin 2 *x w *x Fin (Er e) in
  let h1 := (Fin 3 *x r -x Fin 1) /x Fin (2 * c) in
  let h2 := (Fin 3 *x r +x Fin 1) /x Fin (2 * s) in
  d *x (Fin 1 +x Fin (Fl e) *x (h1 *x Fin s2f *x Fin c2g -x h2 *x Fin c2f *x Fin s2g)).
