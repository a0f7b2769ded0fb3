(** Models of package parallax (v3/parallax/parallax.go) and of the topocentric
    semidiameters of the Moon (v3/semidiameter/semidiameter.go) over the real numbers.
    The apparent sidereal time sidereal.Apparent(jde), as an angle, is the argument [th0]. *)
From Coq Require Import ZArith Reals Bool.
From Flocq Require Import Core.
From Verif Require Import GoMath M_coord M_light.
Local Open Scope R_scope.

(** parallax/parallax.go:16, 25-27 *)
Definition hp : R := AngleFromSec 8.794.
Definition HorizontalParallax (D : R) : R := hp / D.
(** parallax/parallax.go:37-50 *)
Definition Topocentric (al de D rs rc L th0 : R) : R * R :=
  let H := Mod1 (th0 - L - al) in
  let sp := sin (HorizontalParallax D) in
  let da := atan2 (- rc * sp * sin H) (cos de - rc * sp * cos H) in
  (RAAdd al da, atan2 ((sin de - rs * sp) * cos da) (cos de - rc * sp * cos H)).
(** parallax/parallax.go:57-66 *)
Definition Topocentric2 (al de D rs rc L th0 : R) : R * R :=
  let p := HorizontalParallax D in
  let H := Mod1 (th0 - L - al) in
  (- (p * (rc * sin H / cos de)), - (p * (rs * cos de - rc * cos H * sin de))).
(** parallax/parallax.go:73-87 *)
Definition Topocentric3 (al de D rs rc L th0 : R) : R * R :=
  let H := Mod1 (th0 - L - al) in
  let sp := sin (HorizontalParallax D) in
  let A := cos de * sin H in
  let B := cos de * cos H - rc * sp in
  let C := sin de - rs * sp in
  let q := sqrt (A * A + B * B + C * C) in
  (atan2 A B, asin (C / q)).
(** parallax/parallax.go:98-114; theta is the sidereal time in seconds. *)
Definition TopocentricEcliptical (lam be s phi h eps theta p : R) : R * R * R :=
  let '(rs, rc) := ParallaxConstants Earth76 phi h in
  let th := TimeRad theta in
  let sp := sin p in
  let N := cos lam * cos be - rc * sp * cos th in
  let lam' := atan2 (sin lam * cos be - sp * (rs * sin eps + rc * cos eps * sin th)) N in
  let lam' := if Rlt_bool lam' 0 then lam' + 2 * PI else lam' in
  let be' := atan (cos lam' * (sin be - sp * (rs * cos eps - rc * sin eps * sin th)) / N) in
  (lam', be', asin (cos lam' * cos be' * sin s / N)).

(** semidiameter/semidiameter.go:59-70 *)
Definition MoonTopocentric (D de H rs rc : R) : R :=
  let k := 0.272481 in
  let sp := sin (HorizontalParallax D) in
  let A := cos de * sin H in
  let B := cos de * cos H - rc * sp in
  let C := sin de - rs * sp in
  let q := sqrt (A * A + B * B + C * C) in
  k / q * sp.
(** semidiameter/semidiameter.go:28; base/const.go:12: both constants are integers. *)
Definition Moon : R := AngleFromSec (intConst 358473400 149597870).
(** semidiameter/semidiameter.go:77-79 *)
Definition MoonTopocentric2 (D h : R) : R := Moon * ((1 + sin h * sin (HorizontalParallax D)) / D).
