(** Model of base/phase.go and of packages illum, moonillum, stellar, semidiameter on
    exact reals (see GoMath). *)
From Coq Require Import ZArith Reals List.
From Flocq Require Import Core.
From Verif Require Import GoMath M_precess.
Import ListNotations.
Local Open Scope R_scope.

(** math.Log10, math.Pow(10, x) *)
Definition log10 (x : R) : R := ln x / ln 10.
Definition pow10 (x : R) : R := Rpower 10 x.

(** ** base *)
(** base/phase.go:17-20 *)
Definition Illuminated (i : R) : R := (1 + cos i) * 0.5.
(** base/phase.go:28-38 *)
Definition Limb (al de al0 de0 : R) : R :=
  let sd := sin de in let cd := cos de in
  let sd0 := sin de0 in let cd0 := cos de0 in
  let sa := sin (al0 - al) in let ca := cos (al0 - al) in
  let chi := atan2 (cd0 * sa) (sd0 * cd - cd0 * sd * ca) in
  if Rlt_bool chi 0 then chi + 2 * PI else chi.

(** ** illum *)
(** illum/illum.go:23-25 *)
Definition PhaseAngle (r D R0 : R) : R := acos ((r * r + D * D - R0 * R0) / (2 * r * D)).
(** illum/illum.go:31-35 *)
Definition Fraction (r D R0 : R) : R := let s := r + D in (s * s - R0 * R0) / (4 * r * D).
(** illum/illum.go:42-45 *)
Definition PhaseAngle2 (L B R_ L0 R0 D : R) : R := acos ((R_ - R0 * cos B * cos (L - L0)) / D).
(** illum/illum.go:52-57 *)
Definition PhaseAngle3 (L B x y z D : R) : R :=
  acos ((x * cos B * cos L + y * cos B * sin L + z * sin B) / D).
(** illum/illum.go:60-72 *)
Definition venusW (T : R) : R :=
  let p := PI / 180 in
  let V := 261.51 * p + 22518.443 * p * T in
  let M := 177.53 * p + 35999.05 * p * T in
  let N := 50.42 * p + 58517.811 * p * T in
  V + 1.91 * p * sin M + 0.78 * p * sin N.
Definition FractionVenus (jde : R) : R :=
  let T := (jde - 2451545) / 36525 in
  let W := venusW T in
  let D := sqrt (1.52321 + 1.44666 * cos W) in
  let s := 0.72333 + D in
  (s * s - 1) / 2.89332 / D.
(** illum/illum.go:77-131 *)
Definition magMercury (r D i : R) : R := let s := AngleDeg i - 50 in 1.16 + 5 * log10 (r * D) + (0.02838 + 0.0001023 * s) * s.
Definition magVenus (r D i : R) : R := let id := AngleDeg i in -4 + 5 * log10 (r * D) + (0.01322 + 0.0000004247 * id * id) * id.
Definition magMars (r D i : R) : R := -1.3 + 5 * log10 (r * D) + 0.01486 * AngleDeg i.
Definition magJupiter (r D : R) : R := -8.93 + 5 * log10 (r * D).
Definition magSaturn (r D B dU : R) : R :=
  let s := Rabs (sin B) in -8.68 + 5 * log10 (r * D) + 0.044 * Rabs (AngleDeg dU) - 2.6 * s + 1.25 * s * s.
Definition magUranus (r D : R) : R := -6.85 + 5 * log10 (r * D).
Definition magNeptune (r D : R) : R := -7.05 + 5 * log10 (r * D).
(** illum/illum.go:139-214 *)
Definition magMercury84 (r D i : R) : R := HornerR (AngleDeg i) [-0.42 + 5 * log10 (r * D); 0.038; -0.000273; 0.000002].
Definition magVenus84 (r D i : R) : R := HornerR (AngleDeg i) [-4.4 + 5 * log10 (r * D); 0.0009; -0.000239; 0.00000065].
Definition magMars84 (r D i : R) : R := -1.52 + 5 * log10 (r * D) + 0.016 * AngleDeg i.
Definition magJupiter84 (r D i : R) : R := -9.4 + 5 * log10 (r * D) + 0.005 * AngleDeg i.
(** The quotient by |dU| is the code's.  dU = 0 gives +Inf in Go. *)
Definition magSaturn84 (r D B dU : R) : R :=
  let s := Rabs (sin B) in -8.88 + 5 * log10 (r * D) + 0.044 / Rabs (AngleDeg dU) - 2.6 * s + 1.25 * s * s.
Definition magUranus84 (r D : R) : R := -7.19 + 5 * log10 (r * D).
Definition magNeptune84 (r D : R) : R := -6.87 + 5 * log10 (r * D).
Definition magPluto84 (r D : R) : R := -1 + 5 * log10 (r * D).

(** ** moonillum *)
(** moonillum/moonillum.go:28-33 *)
Definition cpsiEq (al al0 de de0 : R) : R := sin de0 * sin de + cos de0 * cos de * cos (al0 - al).
(** moonillum/moonillum.go:63-66 *)
Definition cpsiEcl (lam be lam0 : R) : R := cos be * cos (lam - lam0).
(** moonillum/moonillum.go:36-41 *)
Definition pa (D R_ cpsi : R) : R := let spsi := sin (acos cpsi) in atan2 (R_ * spsi) (D - R_ * cpsi).
(** moonillum/moonillum.go:23-25, 49-51, 58-60, 74-76 *)
Definition PhaseAngleEq (al de D al0 de0 R_ : R) : R := pa D R_ (cpsiEq al al0 de de0).
Definition PhaseAngleEq2 (al de al0 de0 : R) : R := acos (- cpsiEq al al0 de de0).
Definition PhaseAngleEcl (lam be D lam0 R_ : R) : R := pa D R_ (cpsiEcl lam be lam0).
Definition PhaseAngleEcl2 (lam be lam0 : R) : R := acos (- cpsiEcl lam be lam0).
(** A quotient of two untyped integer constants in Go is the integer quotient. *)
Definition intConst (a b : Z) : R := IZR (Z.quot a b).
(** moonillum/moonillum.go:81-97: [PhaseAngle3].  Angle.Mod1 reduces to [0, 2π). *)
Definition illumD (T : R) : R := Mod1 (AngleFromDeg (HornerR T [297.8501921; 445267.1114034; -0.0018819; intConst 1 545868; intConst (-1) 113065000])).
Definition illumM (T : R) : R := Mod1 (AngleFromDeg (HornerR T [357.5291092; 35999.0502909; -0.0001535; intConst 1 24490000])).
Definition illumM' (T : R) : R := Mod1 (AngleFromDeg (HornerR T [134.9633964; 477198.8675055; 0.0087414; intConst 1 69699; intConst (-1) 14712000])).
Definition PhaseAngleDate (jde : R) : R :=
  let T := (jde - 2451545) / 36525 in
  let D := illumD T in let M := illumM T in let M' := illumM' T in
  PI - D + AngleFromDeg (-6.289 * sin M' + 2.1 * sin M + -1.274 * sin (2 * D - M') + -0.658 * sin (2 * D) + -0.214 * sin (2 * M') + -0.11 * sin D).

(** ** stellar *)
(** stellar/stellar.go:14-17 *)
Definition Sum (m1 m2 : R) : R := let x := 0.4 * (m2 - m1) in m2 - 2.5 * log10 (pow10 x + 1).
(** stellar/stellar.go:20-26.  The empty sum has logarithm -Inf in Go. *)
Definition SumN (m : list R) : R := -2.5 * log10 (fold_left (fun s mi => s + pow10 (-0.4 * mi)) m 0).
(** stellar/stellar.go:31-34, 38-40 *)
Definition Ratio (m1 m2 : R) : R := let x := 0.4 * (m2 - m1) in pow10 x.
Definition Difference (ratio : R) : R := 2.5 * log10 ratio.
(** unit.Angle.Sec *)
Definition AngleSec (a : R) : R := a * (180 / PI) * 3600.
(** stellar/stellar.go:45-47, 52-54 *)
Definition AbsoluteByParallax (m par : R) : R := m + 5 + 5 * log10 (AngleSec par).
Definition AbsoluteByDistance (m d : R) : R := m + 5 - 5 * log10 d.

(** ** semidiameter *)
(** semidiameter/semidiameter.go:15-29 *)
Definition SaturnEquatorial : R := AngleFromSec 82.73.
Definition SaturnPolar : R := AngleFromSec 73.82.
(** semidiameter/semidiameter.go:35-37, 45-50, 85-87, 95-97 *)
Definition Semidiameter (s0 D : R) : R := s0 / D.
Definition SaturnApparentPolar (D B : R) : R :=
  let k := SaturnPolar / SaturnEquatorial in
  let k := 1 - k * k in
  let cB := cos B in
  SaturnEquatorial * (sqrt (1 - k * cB * cB) / D).
Definition AsteroidDiameter (H A : R) : R := pow10 (3.12 - 0.2 * H - 0.5 * log10 A).
Definition Asteroid (d D : R) : R := AngleFromSec 0.0013788 * (d / D).
