(** Model of elliptic.Position (v3/elliptic/elliptic.go) and of rise.ApproxPlanet and rise.Planet
    (v3/rise/rise.go) over the real numbers. *)
From Coq Require Import ZArith Reals List.
From Verif Require Import GoFloat GoMath M_base M_julian M_coord M_precess M_vsop M_solar M_physical M_rise M_deltat.
Import ListNotations.
Local Open Scope R_scope.

(** elliptic/elliptic.go:36-38 and 46-48 *)
Definition ell_xyz (L0 B0 R0 L B r : R) : R * R * R :=
  (r * cos B * cos L - R0 * cos B0 * cos L0, r * cos B * sin L - R0 * cos B0 * sin L0, r * sin B - R0 * sin B0).
(** elliptic/elliptic.go:29-60 *)
Definition EllipticPosition (p earth : @V87Planet R) (jde : R) : R * R :=
  let '(L0, B0, R0) := PlanetPosition earth jde in
  let '(L, B, r) := PlanetPosition p jde in
  let '(x, y, z) := ell_xyz L0 B0 R0 L B r in
  let D := sqrt (x * x + y * y + z * z) in
  let tau := LightTime D in
  let '(L, B, r) := PlanetPosition p (jde - tau) in
  let '(x, y, z) := ell_xyz L0 B0 R0 L B r in
  let lam := atan2 y x in
  let be := atan2 z (hypot x y) in
  let '(dl, db) := EclipticAberration lam be jde in
  let '(lam, be) := ToFK5 (lam + dl) (be + db) jde in
  let '(dpsi, deps) := Nutation jde in
  let eps := MeanObliquity jde + deps in
  EclToEq (lam + dpsi) be (sin eps) (cos eps).
(** rise/rise.go:172-176 *)
Definition ApproxPlanet (yr mon day : Z) (pos : Coord) (e pl : @V87Planet R) : option (R * R * R) :=
  let jd := CalendarGregorianToJD (fl := RFlt) yr mon (IZR day) in
  let '(a, d) := EllipticPosition pl e jd in
  ApproxTimes pos Stdh0Stellar (Apparent0UT NutationInRA jd) a d.
(** rise/rise.go:189-198.  A panic of deltat.Interp10A is a panic. *)
Definition RisePlanet (unspec : R -> Z) (yr mon day : Z) (pos : Coord) (e pl : @V87Planet R) : outcome (R * R * R) :=
  let jd := CalendarGregorianToJD (fl := RFlt) yr mon (IZR day) in
  let '(a0, d0) := EllipticPosition pl e (jd - 1) in
  let '(a1, d1) := EllipticPosition pl e jd in
  let '(a2, d2) := EllipticPosition pl e (jd + 1) in
  match Interp10A (fl := RFlt) unspec jd with
  | None => Panic
  | Some DT => Times pos DT Stdh0Stellar (Apparent0UT NutationInRA jd) [a0; a1; a2] [d0; d1; d2]
  end.
